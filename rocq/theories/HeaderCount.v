(** Counting header arrivals (C13) and termination of header processing (C15). *)
From Verif Require Export HeaderProofs.

(** ** Node properties that do not depend on merge states are kept *)
Section Keep.
  Variable P : hnode -> Prop.
  Hypothesis PM : forall st n, P (HMerge st n).

  Lemma Forall_set i (x : hchain) l l' :
    list_set i x l = Ok l' -> Forall (Forall P) l -> Forall P x -> Forall (Forall P) l'.
  Proof.
    revert i l'; induction l as [|a l IH]; intros i l' H HF Hx; [destruct i; discriminate|].
    inversion HF; subst. destruct i as [|i]; cbn in H.
    - injection H as <-. now constructor.
    - destruct (list_set i x l) as [l1|e| | |] eqn:E; cbn in H; try discriminate. injection H as <-.
      constructor; eauto.
  Qed.
  Lemma Forall_nth (l : hgraph) i x : Forall (Forall P) l -> nth_error l i = Some x -> Forall P x.
  Proof. intros H Hn. apply nth_error_In in Hn. rewrite Forall_forall in H. auto. Qed.

  Lemma keep_swap hg c nodes hg1 :
    swap_remove hg c = Ok (nodes, hg1) -> Forall (Forall P) hg ->
    Forall (Forall P) hg1 /\ Forall P nodes.
  Proof.
    unfold swap_remove. destruct (nth_error hg c) as [ch|] eqn:E.
    - destruct (list_set c [] hg) as [l|e| | |] eqn:Es; cbn [bind]; try discriminate.
      intros [= <- <-] HF. split; [eapply Forall_set; eauto|eapply Forall_nth; eauto].
    - destruct (c =? length hg); [|discriminate]. intros [= <- <-] HF. auto.
  Qed.

  Lemma header_keep :
    (forall s c h s', CH s c h s' -> Forall (Forall P) (fst s) -> Forall (Forall P) (fst s')) /\
    (forall s c h ns s', WK s c h ns s' -> Forall (Forall P) (fst s) -> Forall P ns -> Forall (Forall P) (fst s')) /\
    (forall s ids h s', LS s ids h s' -> Forall (Forall P) (fst s) -> Forall (Forall P) (fst s')) /\
    (forall s d h s', CK s d h s' -> Forall (Forall P) (fst s) -> Forall (Forall P) (fst s')).
  Proof.
    apply header_mind; cbn [fst snd].
    - intros hg dg c h nodes hg1 s' Hsw HW IH HF. destruct (keep_swap _ _ _ _ Hsw HF). auto.
    - auto.
    - intros; inversion H4; subst; auto.
    - intros; inversion H3; subst; auto.
    - intros; inversion H6; subst; auto.
    - intros; inversion H5; subst; auto.
    - auto.
    - auto.
    - intros hg hg' dg d h st n rest Hn Hst Hs HF. eapply Forall_set; eauto.
      pose proof (Forall_nth _ _ _ HF Hn) as X. inversion X; subst. constructor; auto.
    - intros hg hg' dg d h st rest s' Hn Hst Hs HC IH HF. apply IH. eapply Forall_set; eauto.
      pose proof (Forall_nth _ _ _ HF Hn) as X. inversion X; subst. constructor; auto.
  Qed.

  Lemma SRC_keep s c h s' : SRC s c h s' -> Forall (Forall P) (fst s) -> Forall (Forall P) (fst s').
  Proof. destruct header_keep as (A & _ & _ & B0). intros H HF. inversion H; subst; eauto. Qed.
End Keep.

(** ** Counting *)
Section Count.
  Variable d : nat.

  Definition is_to (nd : dnode) : bool := match nd with DMerge c => c =? d | _ => false end.
  Definition to_ (nd : dnode) : nat := if is_to nd then 1 else 0.
  Lemma merge_nodes_cons ch g : merge_nodes (ch :: g) d = length (filter is_to ch) + merge_nodes g d.
  Proof. unfold merge_nodes. cbn [concat]. rewrite filter_app, app_length. reflexivity. Qed.

  Lemma merge_nodes_add g nd c g' : add_node g nd c = Ok g' -> merge_nodes g' d = merge_nodes g d + to_ nd.
  Proof.
    unfold add_node. destruct (nth_error g c) as [chain|] eqn:E; [|discriminate].
    revert c g' E; induction g as [|a g IH]; intros c g' E H; [destruct c; discriminate|].
    destruct c as [|c]; cbn in E, H.
    - injection E as ->. injection H as <-. rewrite !merge_nodes_cons, filter_app, app_length.
      unfold to_. cbn. destruct (is_to nd); cbn; lia.
    - destruct (list_set c (chain ++ [nd]) g) as [g1|e| | |] eqn:Es; cbn in H; try discriminate.
      injection H as <-. rewrite !merge_nodes_cons, (IH _ _ E Es). lia.
  Qed.

  Definition tracked (hg : hgraph) : Prop :=
    nth_error hg d = Some [] \/
    exists st n rest, nth_error hg d = Some (HMerge st (S n) :: rest).
  Definition pot (hg : hgraph) : nat :=
    match nth_error hg d with Some (HMerge _ n :: _) => n | _ => 0 end.

  Definition at_d (c : nat) : nat := if c =? d then 1 else 0.
  Definition nosplit (nd : hnode) : Prop := match nd with HSplit ids _ => ~ In d ids | _ => True end.
  Lemma nosplit_M st n : nosplit (HMerge st n).
  Proof. exact I. Qed.

  Definition cnt (a : nat) (s s' : hstate) : Prop :=
    tracked (fst s') /\ pot (fst s') + merge_nodes (snd s') d + a = pot (fst s) + merge_nodes (snd s) d /\
    merge_nodes (snd s) d <= merge_nodes (snd s') d.

  Lemma tracked_eq hg hg' : nth_error hg' d = nth_error hg d -> tracked hg -> tracked hg'.
  Proof. intros E. unfold tracked. now rewrite E. Qed.
  Lemma pot_eq hg hg' : nth_error hg' d = nth_error hg d -> pot hg' = pot hg.
  Proof. intros E. unfold pot. now rewrite E. Qed.
  Lemma pot_nil hg : nth_error hg d = Some [] -> pot hg = 0.
  Proof. intros E. unfold pot. now rewrite E. Qed.
  Lemma tracked_pot0 hg : tracked hg -> pot hg = 0 -> nth_error hg d = Some [].
  Proof. intros [E|(st & n & r & E)]; [auto|]. unfold pot. rewrite E. discriminate. Qed.

  Lemma header_cnt :
    (forall s c h s', CH s c h s' -> Forall (Forall nosplit) (fst s) ->
       (c <> d -> tracked (fst s) -> cnt 0 s s') /\
       (c = d -> nth_error (fst s) d <> None ->
          nth_error (fst s') d = Some [] /\ merge_nodes (snd s') d = merge_nodes (snd s) d)) /\
    (forall s c h ns s', WK s c h ns s' -> Forall (Forall nosplit) (fst s) -> Forall nosplit ns ->
       tracked (fst s) -> cnt 0 s s') /\
    (forall s ids h s', LS s ids h s' -> Forall (Forall nosplit) (fst s) -> ~ In d ids ->
       tracked (fst s) -> cnt 0 s s') /\
    (forall s c h s', CK s c h s' -> Forall (Forall nosplit) (fst s) ->
       tracked (fst s) -> cnt (at_d c) s s').
  Proof.
    destruct (header_keep nosplit nosplit_M) as (KCH & KWK & KLS & KCK).
    unfold cnt. apply header_mind; cbn [fst snd].
    - intros hg dg c h nodes hg1 s' Hsw HW IH HF.
      destruct (keep_swap nosplit _ _ _ _ Hsw HF) as [HF1 Hns].
      destruct (swap_remove_spec _ _ _ _ Hsw) as (_ & [(Hn & Hn1 & Ho)|(Hn & -> & ->)]).
      + split.
        * intros Nc Ht. destruct (IH HF1 Hns) as (T & Q & M).
          -- eapply tracked_eq; [apply Ho; auto|exact Ht].
          -- cbn [fst snd] in *. rewrite (pot_eq hg hg1) in Q by (apply Ho; auto). auto.
        * intros -> _. destruct (IH HF1 Hns) as (T & Q & M); [now left|]. cbn [fst snd] in *.
          rewrite (pot_nil hg1 Hn1) in Q. split; [apply tracked_pot0; auto; lia|lia].
      + split.
        * intros Nc Ht. inversion HW; subst. cbn. repeat split; auto; lia.
        * intros -> C. congruence.
    - intros s c h HF Hns Ht. repeat split; auto; lia.
    - intros hg dg dg' c h h' f k ns s' Hf Ha HW IH HF Hns Ht. inversion Hns; subst.
      apply merge_nodes_add in Ha. unfold to_ in Ha. cbn in Ha.
      destruct (IH HF H2 Ht) as (T & Q & M). cbn [fst snd] in *. repeat split; auto; lia.
    - intros hg dg dg' c h n ns s' Ha HW IH HF Hns Ht. inversion Hns; subst.
      apply merge_nodes_add in Ha. unfold to_ in Ha. cbn in Ha.
      destruct (IH HF H2 Ht) as (T & Q & M). cbn [fst snd] in *. repeat split; auto; lia.
    - intros s hg1 dg1 dg' c h ids n ns s' Hn0 HL IHL Ha HW IH HF Hns Ht. inversion Hns as [|? ? Hd Hns']; subst.
      destruct (IHL HF Hd Ht) as (T1 & Q1 & M1). cbn [fst snd] in *.
      pose proof (KLS _ _ _ _ HL HF) as HF1. cbn [fst] in HF1.
      apply merge_nodes_add in Ha. unfold to_ in Ha. cbn in Ha.
      destruct (IH HF1 Hns' T1) as (T & Q & M). repeat split; auto; lia.
    - intros hg dg dg' c h e ns s1 s' Ha HC IHC HW IH HF Hns Ht. inversion Hns as [|? ? _ Hns']; subst.
      apply merge_nodes_add in Ha. unfold to_ in Ha. cbn in Ha.
      destruct (IHC HF Ht) as (T1 & Q1 & M1). cbn [fst snd] in *.
      pose proof (KCK _ _ _ _ HC HF) as HF1.
      destruct (IH HF1 Hns' T1) as (T & Q & M). unfold at_d in Q1.
      repeat split; auto; destruct (e =? d); lia.
    - intros s h HF Hd Ht. repeat split; auto; lia.
    - intros s i t h s1 s' HC IHC HL IHL HF Hd Ht. cbn in Hd.
      destruct (IHC HF) as [A _]. destruct A as (T1 & Q1 & M1); [intros ->; auto|exact Ht|].
      pose proof (KCH _ _ _ _ HC HF) as HF1.
      destruct (IHL HF1) as (T & Q & M); [tauto|exact T1|]. repeat split; auto; lia.
    - intros hg hg' dg c h st n rest Hn Hst Hs HF Ht.
      apply list_set_spec in Hs as (_ & B0 & C). unfold at_d.
      destruct (Nat.eqb_spec c d) as [->|N].
      + split; [right; eauto|]. unfold pot. rewrite B0, Hn. lia.
      + split; [eapply tracked_eq; [apply C; auto|exact Ht]|].
        rewrite (pot_eq hg hg') by (apply C; auto). lia.
    - intros hg hg' dg c h st rest s' Hn Hst Hs HC IH HF Ht.
      assert (HF' : Forall (Forall nosplit) hg').
      { eapply (Forall_set nosplit); eauto. pose proof (Forall_nth nosplit _ _ _ HF Hn) as X.
        inversion X; subst. constructor; auto. }
      apply list_set_spec in Hs as (_ & B0 & C). unfold at_d.
      destruct (IH HF') as [A1 A2]. destruct (Nat.eqb_spec c d) as [->|N].
      + destruct (A2 eq_refl) as [E1 E2]; [congruence|]. split; [now left|].
        rewrite (pot_nil _ E1), E2. unfold pot. rewrite Hn. lia.
      + destruct A1 as (T & Q & M); [exact N|eapply tracked_eq; [apply C; auto|exact Ht]|].
        rewrite (pot_eq hg hg') in Q by (apply C; auto). repeat split; auto; lia.
  Qed.

  Lemma SRC_cnt s c h s' :
    SRC s c h s' -> Forall (Forall nosplit) (fst s) -> tracked (fst s) -> cnt (at_d c) s s'.
  Proof.
    destruct header_cnt as (A & _ & _ & B0). intros H HF Ht.
    inversion H as [hg dg ? ? st n rest ? Hn HC|hg dg ? ? nd rest ? Hn Hnd HC]; subst; [now apply (B0 _ _ _ _ HC)|].
    assert (c <> d).
    { intros ->. cbn [fst] in Ht. destruct Ht as [E|(st & n & r & E)].
      - rewrite Hn in E. discriminate.
      - rewrite Hn in E. injection E as -> _. now apply (Hnd st (S n)). }
    unfold at_d. destruct (Nat.eqb_spec c d); [contradiction|]. now apply (A _ _ _ _ HC).
  Qed.

  Lemma SRCS_cnt s i hs s' :
    SRCS s i hs s' -> Forall (Forall nosplit) (fst s) -> tracked (fst s) ->
    cnt (if (i <=? d) && (d <? i + length hs) then 1 else 0) s s'.
  Proof.
    induction 1 as [s i|s i h t s1 s' HS HSS IH]; intros HF Ht.
    - cbn [length]. rewrite Nat.add_0_r.
      destruct (Nat.leb_spec i d), (Nat.ltb_spec d i); try lia; cbn; unfold cnt; repeat split; auto; lia.
    - destruct (SRC_cnt _ _ _ _ HS HF Ht) as (T1 & Q1 & M1).
      destruct IH as (T & Q & M); [eapply SRC_keep; eauto using nosplit_M|exact T1|].
      unfold cnt. unfold at_d in Q1. cbn [length] in *.
      split; [exact T|].
      destruct (Nat.eqb_spec i d), (Nat.leb_spec i d), (Nat.leb_spec (S i) d),
        (Nat.ltb_spec d (S i + length t)), (Nat.ltb_spec d (i + S (length t)));
        cbn [andb] in *; lia.
  Qed.
End Count.

Theorem merge_count hg hs dg d n rest :
  fresh hg -> process_header hg hs = Ok dg ->
  nth_error hg d = Some (HMerge None n :: rest) -> not_split_target hg d ->
  arrivals dg (length hs) d <= n /\
  (exists dnodes, nth_error dg d = Some dnodes /\ (dnodes <> [] <-> arrivals dg (length hs) d = n)).
Proof.
  intros Hf H Hd Hns. unfold process_header in H.
  destruct (process_headers _ _ _ _) as [[hg' dg']|e| | |] eqn:E; cbn [bind] in H; try discriminate.
  injection H as <-. apply process_headers_SRCS in E. cbn [snd].
  assert (Hn : 1 <= n).
  { unfold fresh in Hf. rewrite Forall_forall in Hf. pose proof (Hf _ (nth_error_In _ _ Hd)) as X.
    inversion X as [|? ? X1 _]; subst. cbn in X1. tauto. }
  destruct (SRCS_frames _ _ _ _ E (fun _ => None)) as (en & (_ & _ & L1 & L2) & Fr & _).
  { cbn [fst]. now apply fresh_tracks. }
  { cbn [fst snd]. now rewrite repeat_length. }
  destruct (SRCS_cnt d _ _ _ _ E) as (T & Q & _).
  { cbn [fst]. apply Forall_forall. intros ch Hch. apply Forall_forall. intros nd Hnd.
    destruct nd; cbn; auto. eapply Hns; eauto. }
  { cbn [fst]. right. destruct n as [|n]; [lia|]. eauto. }
  cbn [fst snd] in *.
  assert (M0 : merge_nodes (repeat [] (length hg)) d = 0).
  { clear. induction (length hg); cbn; auto. }
  assert (P0 : pot d hg = n) by (unfold pot; now rewrite Hd).
  rewrite M0, P0 in Q. cbn [Nat.leb andb] in Q. rewrite Nat.add_0_l in Q.
  assert (A : arrivals dg' (length hs) d = n - pot d hg' /\ pot d hg' <= n).
  { unfold arrivals. destruct (d <? length hs); lia. }
  split; [lia|].
  assert (Hr : nth_error (repeat (@nil dnode) (length hg)) d = Some []).
  { rewrite nth_error_repeat'. assert (d < length hg) by (apply nth_error_Some; congruence).
    destruct (Nat.ltb_spec d (length hg)); [reflexivity|lia]. }
  destruct (Fr d _ _ Hd Hr) as (c' & d' & A1 & B1 & C1).
  exists d'. split; [exact B1|].
  destruct C1 as [[S ->]|(_ & -> & new & sends & h & -> & _ & Bu & _)].
  - assert (1 <= pot d hg').
    { destruct T as [T|(st & m & r & T)]; unfold pot; rewrite T; [|lia].
      rewrite A1 in T. injection T as ->. destruct S as [S|(?&?&?&?&?&_&S)]; discriminate. }
    split; [congruence|lia].
  - rewrite (pot_nil d hg' A1) in A. inversion Bu; subst. split; [lia|discriminate].
Qed.

(** ** Termination *)
Definition total (hg : hgraph) : nat := length (concat hg).

Lemma total_set i x y (l l' : hgraph) :
  nth_error l i = Some y -> list_set i x l = Ok l' -> total l' + length y = total l + length x.
Proof.
  unfold total. revert i l'; induction l as [|a l IH]; intros i l' Hy H; [destruct i; discriminate|].
  destruct i as [|i]; cbn in Hy, H.
  - injection Hy as ->. injection H as <-. cbn. rewrite !app_length. lia.
  - destruct (list_set i x l) as [l1|e| | |] eqn:E; cbn in H; try discriminate. injection H as <-.
    specialize (IH _ _ Hy E). cbn [concat]. rewrite !app_length. lia.
Qed.

Lemma total_swap hg c nodes hg1 : swap_remove hg c = Ok (nodes, hg1) -> total hg1 + length nodes = total hg.
Proof.
  unfold swap_remove. destruct (nth_error hg c) as [ch|] eqn:E.
  - destruct (list_set c [] hg) as [l|e| | |] eqn:Es; cbn [bind]; try discriminate.
    intros [= <- <-]. pose proof (total_set _ _ _ _ _ E Es) as X. cbn [length] in X. lia.
  - destruct (c =? length hg); [|discriminate]. intros [= <- <-]. cbn. lia.
Qed.

Lemma header_total :
  (forall s c h s', CH s c h s' -> total (fst s') <= total (fst s)) /\
  (forall s c h ns s', WK s c h ns s' -> total (fst s') <= total (fst s)) /\
  (forall s ids h s', LS s ids h s' -> total (fst s') <= total (fst s)) /\
  (forall s d h s', CK s d h s' -> total (fst s') <= total (fst s)).
Proof.
  apply header_mind; cbn [fst snd]; intros; try lia.
  - apply total_swap in H. lia.
  - pose proof (total_set _ _ _ _ _ H H1) as X. cbn [length] in X. lia.
  - pose proof (total_set _ _ _ _ _ H H1) as X. cbn [length] in X. lia.
Qed.

Definition returns (nd : hnode) : Prop := match nd with HSink f => forall h, f h <> NoFuel | _ => True end.
Lemma returns_M st n : returns (HMerge st n).
Proof. exact I. Qed.

Section HFuel.
  Variable f : nat.
  Let rec := match_remove_chain f.
  Hypothesis Hrec : forall s c h, total (fst s) < f -> Forall (Forall returns) (fst s) -> rec s c h <> NoFuel.

  Lemma rec_keep s c h s' :
    rec s c h = Ok s' -> total (fst s) < f -> Forall (Forall returns) (fst s) ->
    total (fst s') < f /\ Forall (Forall returns) (fst s').
  Proof.
    intros E T R. apply match_remove_chain_CH in E. split.
    - destruct header_total as (A & _). specialize (A _ _ _ _ E). lia.
    - destruct (header_keep returns returns_M) as (A & _). eauto.
  Qed.

  Lemma list_set_nofuel {A} i (x : A) l : list_set i x l <> NoFuel.
  Proof.
    revert i; induction l as [|a l IH]; intros [|i]; cbn; try discriminate.
    specialize (IH i). destruct (list_set i x l); cbn; congruence.
  Qed.

  Lemma check_merge_header_fuel s c h :
    total (fst s) < f -> Forall (Forall returns) (fst s) -> check_merge_header rec s c h <> NoFuel.
  Proof.
    destruct s as [hg dg]. cbn [fst]. intros T R. unfold check_merge_header.
    destruct (nth_error hg c) as [[|[g|st count|ids n|k] rest]|] eqn:En; try discriminate.
    destruct count as [|count]; [discriminate|].
    unfold check_header.
    destruct st as [h0|]; [destruct (header_eqb h h0); [|discriminate]|];
    cbn [bind];
    (destruct count as [|count];
     [cbn [unwrap bind]; pose proof (list_set_nofuel c (HMerge None 0 :: rest) hg) as NF;
      destruct (list_set c (HMerge None 0 :: rest) hg) as [hg'|e| | |] eqn:Es; cbn [bind]; try congruence;
      apply Hrec; cbn [fst];
        [pose proof (total_set _ _ _ _ _ En Es) as X; cbn [length] in X; lia
        |eapply (Forall_set returns); eauto; pose proof (Forall_nth returns _ _ _ R En) as Y;
         inversion Y; subst; constructor; auto]
     |match goal with |- context [list_set ?a ?b0 ?g] => pose proof (list_set_nofuel a b0 g) as NF;
        destruct (list_set a b0 g) end; cbn [bind]; congruence]).
  Qed.

  Lemma split_targets_fuel ids s h n :
    total (fst s) < f -> Forall (Forall returns) (fst s) -> split_targets rec s ids h n <> NoFuel.
  Proof.
    revert s n; induction ids as [|i t IH]; intros s n T R; cbn [split_targets]; [discriminate|].
    pose proof (Hrec s i h T R) as NF. destruct (rec s i h) as [s1|e| | |] eqn:E; cbn [bind]; try congruence.
    destruct n; [discriminate|]. destruct (rec_keep _ _ _ _ E T R). now apply IH.
  Qed.

  Lemma add_node_nofuel g nd c : add_node g nd c <> NoFuel.
  Proof. unfold add_node. destruct (nth_error g c); [apply list_set_nofuel|discriminate]. Qed.

  Lemma walk_header_fuel ns s c h :
    total (fst s) < f -> Forall (Forall returns) (fst s) -> Forall returns ns ->
    walk_header rec s c h ns <> NoFuel.
  Proof.
    revert s h; induction ns as [|nd ns IH]; intros s h T R RN; cbn [walk_header]; [discriminate|].
    inversion RN as [|? ? Rn RN']; subst. destruct nd as [g|st n|ids n|d].
    - pose proof (Rn h) as NF. destruct (g h) as [[h' k]|e| | |]; cbn [bind]; try congruence.
      pose proof (add_node_nofuel (snd s) (DSink k) c) as NF2.
      destruct (add_node (snd s) (DSink k) c); cbn [unwrap_res bind]; try congruence. now apply IH.
    - destruct st; cbn [merge_data_sink bind]; [discriminate|].
      pose proof (add_node_nofuel (snd s) (DSink pass_sink) c) as NF2.
      destruct (add_node (snd s) (DSink pass_sink) c); cbn [bind]; try congruence. now apply IH.
    - destruct (n =? 0); [discriminate|].
      pose proof (split_targets_fuel ids s h n T R) as NF.
      destruct (split_targets rec s ids h n) as [s1|e| | |] eqn:E; cbn [bind]; try congruence.
      pose proof (add_node_nofuel (snd s1) (DSplit ids) c) as NF2.
      destruct (add_node (snd s1) (DSplit ids) c); cbn [bind]; try congruence.
      assert (HL : LS s ids h s1).
      { eapply split_targets_LS; [|exact E]. intros; eapply match_remove_chain_CH; eauto. }
      apply IH; cbn [fst]; auto.
      + destruct header_total as (_ & _ & A & _). specialize (A _ _ _ _ HL). lia.
      + destruct (header_keep returns returns_M) as (_ & _ & A & _). eauto.
    - pose proof (add_node_nofuel (snd s) (DMerge d) c) as NF2.
      destruct (add_node (snd s) (DMerge d) c) as [dg'|e| | |]; cbn [bind]; try congruence.
      pose proof (check_merge_header_fuel (fst s, dg') d h T R) as NF.
      destruct (check_merge_header rec (fst s, dg') d h) as [s1|e| | |] eqn:E; cbn [bind]; try congruence.
      assert (HL : CK (fst s, dg') d h s1).
      { eapply check_merge_header_CK; [|exact E]. intros; eapply match_remove_chain_CH; eauto. }
      apply IH; cbn [fst]; auto.
      + destruct header_total as (_ & _ & _ & A). specialize (A _ _ _ _ HL). cbn [fst] in A. lia.
      + destruct (header_keep returns returns_M) as (_ & _ & _ & A). eapply A; eauto.
  Qed.
End HFuel.

Lemma match_remove_chain_fuel f s c h :
  total (fst s) < f -> Forall (Forall returns) (fst s) -> match_remove_chain f s c h <> NoFuel.
Proof.
  revert s c h; induction f as [|f IH]; intros s c h T R; [lia|]. cbn [match_remove_chain].
  assert (NF : swap_remove (fst s) c <> NoFuel).
  { unfold swap_remove. destruct (nth_error (fst s) c); [|destruct (_ =? _); discriminate].
    match goal with |- context [list_set ?a ?b0 ?g] => pose proof (list_set_nofuel a b0 g) as NF;
        destruct (list_set a b0 g) end; cbn; congruence. }
  destruct (swap_remove (fst s) c) as [[nodes hg1]|e| | |] eqn:E; cbn [bind]; try congruence.
  pose proof (total_swap _ _ _ _ E) as TS. destruct (keep_swap returns _ _ _ _ E R) as [R1 RN].
  destruct nodes as [|nd nodes]; [cbn; discriminate|].
  apply walk_header_fuel; auto. cbn [fst length] in *. lia.
Qed.

Lemma process_headers_fuel f hs s i :
  total (fst s) < f -> Forall (Forall returns) (fst s) -> process_headers f s i hs <> NoFuel.
Proof.
  revert s i; induction hs as [|h t IH]; intros s i T R; cbn [process_headers]; [discriminate|].
  assert (NF : process_header_re f s i h <> NoFuel).
  { unfold process_header_re. destruct (nth_error (fst s) i) as [[|[g|st n|ids n|d] rest]|]; try discriminate;
      try (now apply match_remove_chain_fuel).
    apply check_merge_header_fuel; auto. intros. now apply match_remove_chain_fuel. }
  destruct (process_header_re f s i h) as [s1|e| | |] eqn:E; cbn [bind]; try congruence.
  apply process_header_re_SRC in E. apply IH.
  - inversion E as [hg dg ? ? st n rest ? Hn HC|hg dg ? ? nd rest ? Hn Hnd HC]; subst; cbn [fst] in *.
    + destruct header_total as (_ & _ & _ & A). specialize (A _ _ _ _ HC). cbn [fst] in A. lia.
    + destruct header_total as (A & _). specialize (A _ _ _ _ HC). cbn [fst] in A. lia.
  - eapply SRC_keep; eauto using returns_M.
Qed.

Lemma process_header_terminates hg hs :
  header_sinks_return hg -> process_header hg hs <> NoFuel.
Proof.
  intro H. unfold process_header.
  pose proof (process_headers_fuel (hfuel hg) hs (hg, repeat [] (length hg)) 0) as NF.
  destruct (process_headers _ _ _ _); cbn [bind]; try congruence.
  exfalso. apply NF; [unfold hfuel, total; cbn [fst]; lia| |reflexivity].
  cbn [fst]. apply Forall_forall. intros ch Hch. apply Forall_forall. intros nd Hnd.
  destruct nd; cbn; auto. intro h. eapply H; eauto.
Qed.

(** Chains that headers reach directly or through a split are built (C12). *)
From Verif Require Export HeaderMore.

Definition gone (hg : hgraph) (k : nat) : Prop := nth_error hg k = Some [] \/ length hg <= k.

(** Every target of a split node of the data graph has been taken out of the header graph. *)
Definition splits_done (s : hstate) : Prop :=
  forall c chain ids k, nth_error (snd s) c = Some chain -> In (DSplit ids) chain -> In k ids ->
    gone (fst s) k.

Lemma gone_set i (x : hchain) hg hg' k :
  list_set i x hg = Ok hg' -> (i <> k \/ x = []) -> gone hg k -> gone hg' k.
Proof.
  intros H Hx [G|G]; apply HeaderProofs.list_set_spec in H as (A & B0 & C).
  - destruct (Nat.eq_dec k i) as [->|N].
    + left. destruct Hx as [Hx| ->]; [congruence|exact B0].
    + left. now rewrite C.
  - right. lia.
Qed.
Lemma gone_swap hg c nodes hg1 k : swap_remove hg c = Ok (nodes, hg1) -> gone hg k -> gone hg1 k.
Proof.
  intros H [G|G]; apply swap_remove_spec in H as (L & [(A & B0 & C)|(_ & _ & ->)]).
  - destruct (Nat.eq_dec k c) as [->|N]; [now left|]. left. now rewrite C.
  - now left.
  - right. lia.
  - now right.
Qed.
Lemma swap_gone hg c nodes hg1 : swap_remove hg c = Ok (nodes, hg1) -> gone hg1 c.
Proof.
  intro H. apply swap_remove_spec in H as (L & [(A & B0 & C)|(A & _ & ->)]); [now left|].
  right. now apply nth_error_None.
Qed.

(** What was taken stays taken. *)
Lemma gone_mono :
  (forall s c h s', CH s c h s' -> gone (fst s') c /\ forall k, gone (fst s) k -> gone (fst s') k) /\
  (forall s c h ns s', WK s c h ns s' -> forall k, gone (fst s) k -> gone (fst s') k) /\
  (forall s ids h s', LS s ids h s' ->
     (forall k, In k ids -> gone (fst s') k) /\ forall k, gone (fst s) k -> gone (fst s') k) /\
  (forall s d h s', CK s d h s' -> forall k, gone (fst s) k -> gone (fst s') k).
Proof.
  apply header_mind; cbn [fst snd].
  - intros hg dg c h nodes hg1 s' Hs HW IH. split.
    + apply IH. eapply swap_gone; eauto.
    + intros k G. apply IH. eapply gone_swap; eauto.
  - auto.
  - auto.
  - auto.
  - intros s hg1 dg1 dg' c h ids n ns s' Hn HL [_ IHL] Ha HW IH k G. apply IH, IHL, G.
  - auto.
  - intros s h. split; [intros k []|auto].
  - intros s i t h s1 s' HC [IH1 IH2] HL [IH3 IH4]. split.
    + intros k [<-|Hk]; auto.
    + auto.
  - intros hg hg' dg d h st n rest Hn Hst Hs k G. eapply gone_set; eauto. left. intros ->.
    destruct G as [G|G]; [congruence|]. apply nth_error_None in G. congruence.
  - intros hg hg' dg d h st rest s' Hn Hst Hs HC [_ IH] k G. apply IH. eapply gone_set; eauto.
    left. intros ->. destruct G as [G|G]; [congruence|]. apply nth_error_None in G. congruence.
Qed.

Lemma done_hg hg hg' dg :
  (forall k, gone hg k -> gone hg' k) -> splits_done (hg, dg) -> splits_done (hg', dg).
Proof. intros M D c chain ids k A B0 C. apply M. exact (D c chain ids k A B0 C). Qed.

Lemma done_add hg dg nd c dg' :
  add_node dg nd c = Ok dg' -> (forall ids, nd = DSplit ids -> forall k, In k ids -> gone hg k) ->
  splits_done (hg, dg) -> splits_done (hg, dg').
Proof.
  intros Ha Hnd D j chain ids k Hj Hin Hk. apply add_node_spec in Ha as (_ & (ch & A & B0) & C).
  cbn [fst snd] in *. destruct (Nat.eq_dec j c) as [->|N].
  - rewrite B0 in Hj. injection Hj as <-. apply in_app_or in Hin as [Hin|[Hin|[]]].
    + eapply D; eauto.
    + eapply Hnd; eauto.
  - rewrite C in Hj by exact N. exact (D _ _ _ _ Hj Hin Hk).
Qed.

Lemma splits_kept :
  (forall s c h s', CH s c h s' -> splits_done s -> splits_done s') /\
  (forall s c h ns s', WK s c h ns s' -> splits_done s -> splits_done s') /\
  (forall s ids h s', LS s ids h s' -> splits_done s -> splits_done s') /\
  (forall s d h s', CK s d h s' -> splits_done s -> splits_done s').
Proof.
  destruct gone_mono as (GC & GW & GL & GK).
  apply header_mind; cbn [fst snd].
  - intros hg dg c h nodes hg1 s' Hs HW IH D. apply IH. eapply done_hg; [|exact D].
    intros k. eapply gone_swap; eauto.
  - auto.
  - intros hg dg dg' c h h' f k ns s' Hf Ha HW IH D. apply IH. eapply done_add; eauto. discriminate.
  - intros hg dg dg' c h n ns s' Ha HW IH D. apply IH. eapply done_add; eauto. discriminate.
  - intros s hg1 dg1 dg' c h ids n ns s' Hn HL IHL Ha HW IH D. apply IH. eapply done_add; eauto.
    intros ids' [= <-] k Hk. apply (proj1 (GL _ _ _ _ HL)). exact Hk.
  - intros hg dg dg' c h d ns s1 s' Ha HC IHC HW IH D. apply IH, IHC. eapply done_add; eauto. discriminate.
  - auto.
  - auto.
  - intros hg hg' dg d h st n rest Hn Hst Hs D.
    eapply done_hg; [|exact D]. intros k G.
    eapply (GK (hg, dg) d h (hg', dg)); [|exact G]. eapply CK_more; eauto.
  - intros hg hg' dg d h st rest s' Hn Hst Hs HC IH D. apply IH. eapply done_hg; [|exact D].
    intros k G. eapply gone_set; eauto. left. intros ->.
    destruct G as [G|G]; [congruence|]. apply nth_error_None in G. congruence.
Qed.

Lemma SRC_gone s c h s' :
  SRC s c h s' -> (forall k, gone (fst s) k -> gone (fst s') k) /\ (splits_done s -> splits_done s') /\
  ((forall st n rest, nth_error (fst s) c <> Some (HMerge st n :: rest)) -> gone (fst s') c).
Proof.
  destruct gone_mono as (GC & _ & _ & GK). destruct splits_kept as (SC & _ & _ & SK).
  intro H. inversion H as [hg dg ? ? st n rest ? Hn HC|hg dg ? ? nd rest ? Hn Hnd HC]; subst.
  - split; [exact (GK _ _ _ _ HC)|]. split; [exact (SK _ _ _ _ HC)|]. intro X. destruct (X _ _ _ Hn).
  - split; [exact (proj2 (GC _ _ _ _ HC))|]. split; [exact (SC _ _ _ _ HC)|]. intros _. exact (proj1 (GC _ _ _ _ HC)).
Qed.

(** A chain that does not start with a merge never does later. *)
Definition leads (hg : hgraph) (c : nat) : Prop :=
  exists st n rest, @nth_error hchain hg c = Some (HMerge st n :: rest).

Lemma SRCS_gone s i hs s' :
  SRCS s i hs s' ->
  forall en, tracks (fst s) en -> length (snd s) = length (fst s) ->
  (forall k, gone (fst s) k -> gone (fst s') k) /\ (splits_done s -> splits_done s') /\
  (forall j, j < length hs -> ~ leads (fst s) (i + j) -> gone (fst s') (i + j)).
Proof.
  induction 1 as [s i|s i h t s1 s' HS HSS IH]; intros en Ht Hl.
  - split; [auto|]. split; [auto|]. intros j Hj. cbn in Hj. lia.
  - destruct (SRC_gone _ _ _ _ HS) as (G1 & D1 & E1).
    destruct (SRC_frames _ _ _ _ HS en Ht Hl) as (en1 & (_ & T1 & M1 & M2) & Fr & _).
    destruct (IH en1 T1 ltac:(congruence)) as (G & D & E). split; [auto|]. split; [auto|].
    intros [|j] Hj Hn.
    + rewrite Nat.add_0_r in *. apply G, E1. intros st n rest X. apply Hn. red. eauto.
    + replace (i + S j) with (S i + j) in * by lia. cbn [length] in Hj. apply E; [lia|].
      intros (st & n & rest & X). apply Hn.
      destruct (nth_error (fst s) (S i + j)) as [ch|] eqn:Ec.
      2:{ apply nth_error_None in Ec. assert (S i + j < length (fst s1)) by (apply nth_error_Some; congruence). lia. }
      destruct (nth_error (snd s) (S i + j)) as [dch|] eqn:Ed.
      2:{ apply nth_error_None in Ed. assert (S i + j < length (fst s)) by (apply nth_error_Some; congruence). lia. }
      destruct (Fr _ _ _ Ec Ed) as (c' & d' & A & _ & [[S _]|(_ & -> & _)]); [|congruence].
      rewrite X in A. injection A as <-. red. rewrite Ec.
      destruct S as [->|(? & ? & ? & ? & ? & -> & [= _ _ _])]; eauto.
Qed.

(** The data graph, with nothing left out. *)
Theorem process_header_full hg hs dg :
  fresh hg -> process_header hg hs = Ok dg ->
  forall k nodes, nth_error hg k = Some nodes ->
  (k < length hs /\ (forall st n rest, nodes <> HMerge st n :: rest)) \/
  (exists c chain ids, nth_error dg c = Some chain /\ In (DSplit ids) chain /\ In k ids) ->
  exists h sends dnodes, nth_error dg k = Some dnodes /\ built h nodes dnodes sends /\
    (forall h', nth_error hs k = Some h' -> h' = h).
Proof.
  intros Hf H k nodes Hk Hr. unfold process_header in H.
  destruct (process_headers _ _ _ _) as [[hg' dg']|e| | |] eqn:E; cbn [bind] in H; try discriminate.
  injection H as <-. apply process_headers_SRCS in E. cbn [snd] in *.
  destruct (SRCS_frames _ _ _ _ E (fun _ => None)) as (en & (_ & _ & L1 & L2) & Fr & En).
  { cbn [fst]. now apply fresh_tracks. }
  { cbn [fst snd]. now rewrite repeat_length. }
  destruct (SRCS_gone _ _ _ _ E (fun _ => None)) as (_ & D & G).
  { cbn [fst]. now apply fresh_tracks. }
  { cbn [fst snd]. now rewrite repeat_length. }
  cbn [fst snd] in *.
  assert (Kl : k < length hg) by (apply nth_error_Some; congruence).
  assert (Gk : gone hg' k).
  { destruct Hr as [[Hs Hn]|(c & chain & ids & Hc & Hin & Hi)].
    - apply (G k); [exact Hs|]. intros (st & n & rest & X). cbn in X.
      apply (Hn st n rest). congruence.
    - eapply (D ltac:(intros c' chain' ids' k' Hc' Hin' _; cbn [snd] in Hc';
        rewrite nth_error_repeat' in Hc'; destruct (c' <? length hg); [|discriminate];
        injection Hc' as <-; destruct Hin')); eauto. }
  destruct Gk as [Gk|Gk]; [|lia].
  assert (Hrp : nth_error (repeat (@nil dnode) (length hg)) k = Some []).
  { rewrite nth_error_repeat'. destruct (Nat.ltb_spec k (length hg)); [reflexivity|lia]. }
  destruct (Fr k _ _ Hk Hrp) as (c' & d' & A & B0 & C).
  rewrite Gk in A. injection A as <-.
  destruct C as [[S ->]|(_ & _ & new & sends & h & -> & E1 & Bu & Se)].
  - destruct S as [->|(? & ? & ? & ? & ? & _ & X)]; [|discriminate].
    destruct (nth_error hs k) as [h|] eqn:Eh.
    + exists h, [], []. split; [exact B0|]. split; [constructor|]. intros h' [= ->]. reflexivity.
    + exists {| h_names := []; h_types := [] |}, [], []. split; [exact B0|]. split; [constructor|]. discriminate.
  - exists h, sends, new. split; [exact B0|]. split; [exact Bu|].
    intros h' Hh. apply En in Hh. cbn in Hh. congruence.
Qed.

(** Proofs about header processing. *)
From Verif Require Export HeaderSpec DriveFail.

Lemma list_eqb_eq {A} (eqb : A -> A -> bool) :
  (forall x y, eqb x y = true <-> x = y) -> forall x y, list_eqb eqb x y = true <-> x = y.
Proof.
  intros H. induction x as [|a x IH]; intros [|c y]; cbn; try (split; congruence).
  rewrite andb_true_iff, H, IH. split; [intros [-> ->]; reflexivity|intros [= -> ->]; auto].
Qed.
Lemma ftype_eqb_eq x y : ftype_eqb x y = true <-> x = y.
Proof. destruct x, y; cbn; split; congruence. Qed.
Lemma header_eqb_eq x y : header_eqb x y = true <-> x = y.
Proof.
  unfold header_eqb. rewrite andb_true_iff, (list_eqb_eq _ bytes_eqb_eq), (list_eqb_eq _ ftype_eqb_eq).
  destruct x, y; cbn. split; [intros [-> ->]; reflexivity|intros [= -> ->]; auto].
Qed.

Lemma list_set_spec {A} i (x : A) l l' :
  list_set i x l = Ok l' ->
  length l' = length l /\ nth_error l' i = Some x /\ (forall j, j <> i -> nth_error l' j = nth_error l j).
Proof.
  revert i l'; induction l as [|a l IH]; intros i l' H; [destruct i; discriminate|].
  destruct i as [|i]; cbn in H.
  - injection H as <-. repeat split. intros [|j] Hj; [congruence|reflexivity].
  - destruct (list_set i x l) as [l1|e| | |] eqn:E; cbn in H; try discriminate. injection H as <-.
    destruct (IH _ _ E) as (A1 & A2 & A3). cbn. repeat split; auto.
    intros [|j] Hj; [reflexivity|]. cbn. apply A3. congruence.
Qed.
Lemma list_set_ok {A} i (x : A) l : i < length l -> exists l', list_set i x l = Ok l'.
Proof.
  revert i; induction l as [|a l IH]; intros i H; cbn in H; [lia|].
  destruct i as [|i]; cbn; [eauto|]. destruct (IH i) as (l' & E); [lia|]. rewrite E. cbn. eauto.
Qed.

Lemma add_node_spec g nd c g' :
  add_node g nd c = Ok g' ->
  length g' = length g /\
  (exists chain, nth_error g c = Some chain /\ nth_error g' c = Some (chain ++ [nd])) /\
  (forall j, j <> c -> nth_error g' j = nth_error g j).
Proof.
  unfold add_node. destruct (nth_error g c) as [chain|] eqn:E; [|discriminate].
  intro H. apply list_set_spec in H as (A1 & A2 & A3). split; [exact A1|]. split; eauto.
Qed.

(** ** Successful header processing as a relation *)
Inductive CH : hstate -> nat -> header -> hstate -> Prop :=
| CH_intro hg dg c h nodes hg1 s' :
    swap_remove hg c = Ok (nodes, hg1) -> WK (hg1, dg) c h nodes s' -> CH (hg, dg) c h s'
with WK : hstate -> nat -> header -> list hnode -> hstate -> Prop :=
| WK_nil s c h : WK s c h [] s
| WK_sink hg dg dg' c h h' f k ns s' :
    f h = Ok (h', k) -> add_node dg (DSink k) c = Ok dg' ->
    WK (hg, dg') c h' ns s' -> WK (hg, dg) c h (HSink f :: ns) s'
| WK_merge hg dg dg' c h n ns s' :
    add_node dg (DSink pass_sink) c = Ok dg' ->
    WK (hg, dg') c h ns s' -> WK (hg, dg) c h (HMerge None n :: ns) s'
| WK_split s hg1 dg1 dg' c h ids n ns s' :
    n <> 0 -> LS s ids h (hg1, dg1) -> add_node dg1 (DSplit ids) c = Ok dg' ->
    WK (hg1, dg') c h ns s' -> WK s c h (HSplit ids n :: ns) s'
| WK_goto hg dg dg' c h d ns s1 s' :
    add_node dg (DMerge d) c = Ok dg' -> CK (hg, dg') d h s1 ->
    WK s1 c h ns s' -> WK (hg, dg) c h (HGoto d :: ns) s'
with LS : hstate -> list nat -> header -> hstate -> Prop :=
| LS_nil s h : LS s [] h s
| LS_cons s i t h s1 s' : CH s i h s1 -> LS s1 t h s' -> LS s (i :: t) h s'
with CK : hstate -> nat -> header -> hstate -> Prop :=
| CK_more hg hg' dg d h st n rest :
    @nth_error hchain hg d = Some (HMerge st (S (S n)) :: rest) -> (st = None \/ st = Some h) ->
    @list_set hchain d (HMerge (Some h) (S n) :: rest) hg = Ok hg' ->
    CK (hg, dg) d h (hg', dg)
| CK_last hg hg' dg d h st rest s' :
    @nth_error hchain hg d = Some (HMerge st 1 :: rest) -> (st = None \/ st = Some h) ->
    @list_set hchain d (HMerge None 0 :: rest) hg = Ok hg' ->
    CH (hg', dg) d h s' -> CK (hg, dg) d h s'.

Scheme CH_mind := Minimality for CH Sort Prop
  with WK_mind := Minimality for WK Sort Prop
  with LS_mind := Minimality for LS Sort Prop
  with CK_mind := Minimality for CK Sort Prop.
Combined Scheme header_mind from CH_mind, WK_mind, LS_mind, CK_mind.

Section ToRel.
  Variable rec : hstate -> nat -> header -> res hstate.
  Hypothesis Hrec : forall s c h s', rec s c h = Ok s' -> CH s c h s'.

  Lemma check_header_ok st h st' :
    check_header st h = Ok st' -> (st = None \/ st = Some h) /\ st' = Some h.
  Proof.
    unfold check_header. destruct st as [h0|]; intro H.
    - destruct (header_eqb h h0) eqn:E; [|discriminate]. apply header_eqb_eq in E as ->.
      injection H as <-. auto.
    - injection H as <-. auto.
  Qed.

  Lemma check_merge_header_CK s d h s' :
    check_merge_header rec s d h = Ok s' -> CK s d h s'.
  Proof.
    destruct s as [hg dg]. unfold check_merge_header.
    destruct (nth_error hg d) as [[|[f|st count|ids n|c] rest]|] eqn:En; try discriminate.
    destruct count as [|count]; [discriminate|].
    destruct (check_header st h) as [st'|e| | |] eqn:E; cbn [bind]; try discriminate.
    apply check_header_ok in E as [Est ->].
    destruct count as [|count].
    - cbn [unwrap bind]. match goal with |- context [list_set ?a ?b0 ?c] => destruct (list_set a b0 c) as [hg'|e| | |] eqn:Es end; cbn [bind]; try discriminate.
      intro H. eapply CK_last; eauto.
    - match goal with |- context [list_set ?a ?b0 ?c] => destruct (list_set a b0 c) as [hg'|e| | |] eqn:Es end; cbn [bind]; try discriminate.
      intros [= <-]. eapply CK_more; eauto.
  Qed.

  Lemma split_targets_LS ids s h n s' :
    split_targets rec s ids h n = Ok s' -> LS s ids h s'.
  Proof.
    revert s n; induction ids as [|i t IH]; intros s n H; cbn in H.
    - injection H as <-. constructor.
    - destruct (rec s i h) as [s1|e| | |] eqn:E; cbn [bind] in H; try discriminate.
      destruct n as [|n]; [discriminate|]. econstructor; eauto.
  Qed.

  Lemma walk_header_WK ns s c h s' :
    walk_header rec s c h ns = Ok s' -> WK s c h ns s'.
  Proof.
    revert s h; induction ns as [|nd ns IH]; intros s h H; cbn [walk_header] in H.
    - injection H as <-. constructor.
    - destruct s as [hg dg]. destruct nd as [f|st n|ids n|d]; cbn [fst snd] in H.
      + destruct (f h) as [[h' k]|e| | |] eqn:Ef; cbn [bind] in H; try discriminate.
        destruct (add_node dg (DSink k) c) as [dg'|e| | |] eqn:Ea; cbn [unwrap_res bind] in H;
          try discriminate. econstructor; eauto.
      + unfold merge_data_sink in H. destruct st; cbn [bind] in H; [discriminate|].
        destruct (add_node dg (DSink pass_sink) c) as [dg'|e| | |] eqn:Ea; cbn [bind] in H; try discriminate.
        econstructor; eauto.
      + destruct (Nat.eqb_spec n 0); [discriminate|].
        destruct (split_targets rec (hg, dg) ids h n) as [[hg1 dg1]|e| | |] eqn:El; cbn [bind] in H; try discriminate.
        cbn [fst snd] in H.
        destruct (add_node dg1 (DSplit ids) c) as [dg'|e| | |] eqn:Ea; cbn [bind] in H; try discriminate.
        apply split_targets_LS in El. econstructor; eauto.
      + destruct (add_node dg (DMerge d) c) as [dg'|e| | |] eqn:Ea; cbn [bind] in H; try discriminate.
        destruct (check_merge_header rec (hg, dg') d h) as [s1|e| | |] eqn:Ec; cbn [bind] in H; try discriminate.
        apply check_merge_header_CK in Ec. econstructor; eauto.
  Qed.
End ToRel.

Lemma match_remove_chain_CH f s c h s' : match_remove_chain f s c h = Ok s' -> CH s c h s'.
Proof.
  revert s c h s'; induction f as [|f IH]; intros [hg dg] c h s' H; cbn [match_remove_chain] in H; [discriminate|].
  cbn [fst snd] in H.
  destruct (swap_remove hg c) as [[nodes hg1]|e| | |] eqn:E; cbn [bind] in H; try discriminate.
  econstructor; [exact E|]. eapply walk_header_WK; eauto.
Qed.

(** One source header: through a leading merge, or straight into the chain. *)
Inductive SRC : hstate -> nat -> header -> hstate -> Prop :=
| SRC_merge hg dg c h st n rest s' :
    @nth_error hchain hg c = Some (HMerge st n :: rest) -> CK (hg, dg) c h s' -> SRC (hg, dg) c h s'
| SRC_chain hg dg c h nd rest s' :
    @nth_error hchain hg c = Some (nd :: rest) -> (forall st n, nd <> HMerge st n) ->
    CH (hg, dg) c h s' -> SRC (hg, dg) c h s'.
Inductive SRCS : hstate -> nat -> list header -> hstate -> Prop :=
| SRCS_nil s i : SRCS s i [] s
| SRCS_cons s i h t s1 s' : SRC s i h s1 -> SRCS s1 (S i) t s' -> SRCS s i (h :: t) s'.

Lemma process_header_re_SRC f s c h s' : process_header_re f s c h = Ok s' -> SRC s c h s'.
Proof.
  destruct s as [hg dg]. unfold process_header_re. cbn [fst].
  destruct (nth_error hg c) as [[|nd rest]|] eqn:E; try discriminate.
  destruct nd; intro H; try (eapply SRC_chain; eauto; [discriminate|]; eapply match_remove_chain_CH; eauto).
  eapply SRC_merge; eauto. eapply check_merge_header_CK; eauto.
  intros. eapply match_remove_chain_CH; eauto.
Qed.
Lemma process_headers_SRCS f hs s i s' : process_headers f s i hs = Ok s' -> SRCS s i hs s'.
Proof.
  revert s i; induction hs as [|h t IH]; intros s i H; cbn in H.
  - injection H as <-. constructor.
  - destruct (process_header_re f s i h) as [s1|e| | |] eqn:E; cbn [bind] in H; try discriminate.
    econstructor; [eapply process_header_re_SRC; eauto|eauto].
Qed.

(** ** Frames: what processing does to each chain *)

(** Same chain up to the state of a leading merge. *)
Definition same_chain (x y : hchain) : Prop :=
  x = y \/ exists st n st' n' rest, x = HMerge st n :: rest /\ y = HMerge st' n' :: rest.
Lemma same_refl x : same_chain x x.
Proof. now left. Qed.
Lemma same_trans x y z : same_chain x y -> same_chain y z -> same_chain x z.
Proof.
  intros [->|(st & n & st' & n' & r & -> & ->)]; [auto|].
  intros [<-|(a & c & a' & c' & r' & [= <- <- <-] & ->)]; right; eauto 10.
Qed.
Lemma same_nil x : same_chain [] x -> x = [].
Proof. intros [<-|(?&?&?&?&?&H&_)]; [reflexivity|discriminate]. Qed.
Lemma same_built x y h ds sends : same_chain x y -> built h y ds sends -> built h x ds sends.
Proof.
  intros [->|(st & n & st' & n' & r & -> & ->)] H; [exact H|].
  inversion H; subst. now constructor.
Qed.

(** Entry headers: what is known about the header of each chain. [en d = Some h]: chain [d]
    was entered by [h], or waits at its leading merge holding [h]. *)
Definition entries := nat -> option header.
Definition extends (e e' : entries) : Prop := forall d h, e d = Some h -> e' d = Some h.
Lemma extends_refl e : extends e e.
Proof. intros d h H; exact H. Qed.
Lemma extends_trans a c d : extends a c -> extends c d -> extends a d.
Proof. intros H1 H2 x h H. auto. Qed.

(* the state holds header h at the leading merge of d exactly if en says so *)
Definition track1 (en : entries) (d : nat) (chain : hchain) : Prop :=
  match chain with
  | [] => True
  | HMerge (Some h) n :: _ => en d = Some h /\ 1 <= n
  | HMerge None n :: _ => en d = None /\ 1 <= n
  | _ => en d = None
  end.
Definition tracks_but (c : nat) (hg : hgraph) (en : entries) : Prop :=
  forall d chain, nth_error hg d = Some chain -> d <> c -> track1 en d chain.
Definition tracks (hg : hgraph) (en : entries) : Prop :=
  forall d chain, nth_error hg d = Some chain -> track1 en d chain.

Definition sent (en : entries) (sends : list (nat * header)) : Prop :=
  forall d h, In (d, h) sends -> en d = Some h.
Lemma sent_mono en en' sends : extends en en' -> sent en sends -> sent en' sends.
Proof. intros E H d h Hin. auto. Qed.

Definition frame (hg : hgraph) (dg : dgraph) (hg' : hgraph) (dg' : dgraph) (en' : entries)
    (k : nat) : Prop :=
  forall chain dch, nth_error hg k = Some chain -> nth_error dg k = Some dch ->
  exists chain' dch', nth_error hg' k = Some chain' /\ nth_error dg' k = Some dch' /\
    ((same_chain chain chain' /\ dch' = dch) \/
     (chain <> [] /\ chain' = [] /\ exists new sends h, dch' = dch ++ new /\
        en' k = Some h /\ built h chain new sends /\ sent en' sends)).

Lemma frame_refl hg dg en k : frame hg dg hg dg en k.
Proof. intros chain dch A B. exists chain, dch. auto using same_refl. Qed.

Lemma frame_same hg dg hg' dg' en k :
  nth_error hg' k = nth_error hg k -> nth_error dg' k = nth_error dg k -> frame hg dg hg' dg' en k.
Proof. intros E1 E2 chain dch A B. exists chain, dch. rewrite E1, E2. auto using same_refl. Qed.

Lemma same_nonempty x y : same_chain x y -> y <> [] -> x <> [].
Proof. intros [->|(?&?&?&?&?&->&_)]; congruence. Qed.

Lemma frame_trans hg dg hg1 dg1 en1 hg2 dg2 en2 k :
  extends en1 en2 -> frame hg dg hg1 dg1 en1 k -> frame hg1 dg1 hg2 dg2 en2 k ->
  frame hg dg hg2 dg2 en2 k.
Proof.
  intros X F1 F2 chain dch A B. destruct (F1 _ _ A B) as (c1 & d1 & A1 & B1 & C1).
  destruct (F2 _ _ A1 B1) as (c2 & d2 & A2 & B2 & C2). exists c2, d2. repeat split; auto.
  destruct C1 as [[S1 ->]|(N1 & -> & new & sends & h & -> & E & Bu & Se)].
  - destruct C2 as [[S2 ->]|(N2 & -> & new & sends & h & -> & E & Bu & Se)].
    + left. split; [eapply same_trans; eauto|reflexivity].
    + right. split; [eapply same_nonempty; eauto|]. split; [reflexivity|].
      exists new, sends, h. repeat split; auto. eapply same_built; eauto.
  - destruct C2 as [[S2 ->]|(N2 & _)]; [|congruence].
    apply same_nil in S2 as ->. right. split; [exact N1|]. split; [reflexivity|].
    exists new, sends, h. repeat split; auto. eapply sent_mono; eauto.
Qed.

Definition upd (en : entries) (d : nat) (h : header) : entries :=
  fun k => if k =? d then Some h else en k.
Lemma upd_same en d h : upd en d h d = Some h.
Proof. unfold upd. now rewrite Nat.eqb_refl. Qed.
Lemma upd_other en d h k : k <> d -> upd en d h k = en k.
Proof. intro H. unfold upd. now destruct (Nat.eqb_spec k d). Qed.
Lemma upd_extends en d h : (en d = None \/ en d = Some h) -> extends en (upd en d h).
Proof.
  intros H k h' E. unfold upd. destruct (Nat.eqb_spec k d) as [->|]; [|exact E].
  destruct H; congruence.
Qed.
Lemma track1_upd en d h k chain : k <> d -> track1 en k chain -> track1 (upd en d h) k chain.
Proof. intro N. unfold track1. destruct chain as [|[f|[h0|] n|ids n|c] r]; rewrite ?upd_other by exact N; auto. Qed.

Lemma swap_remove_spec hg c nodes hg1 :
  swap_remove hg c = Ok (nodes, hg1) ->
  length hg1 = length hg /\
  ((nth_error hg c = Some nodes /\ nth_error hg1 c = Some [] /\
    forall j, j <> c -> nth_error hg1 j = nth_error hg j) \/
   (nth_error hg c = None /\ nodes = [] /\ hg1 = hg)).
Proof.
  unfold swap_remove. destruct (nth_error hg c) as [ch|] eqn:E.
  - destruct (list_set c [] hg) as [l|e| | |] eqn:Es; cbn [bind]; try discriminate.
    intros [= <- <-]. apply list_set_spec in Es as (A & B & C). split; [exact A|]. left. auto.
  - destruct (c =? length hg); [|discriminate]. intros [= <- <-]. split; auto.
Qed.

Definition good (hg : hgraph) (dg : dgraph) (hg' : hgraph) (dg' : dgraph) (en en' : entries) : Prop :=
  extends en en' /\ tracks hg' en' /\ length hg' = length hg /\ length dg' = length dg.

Theorem header_frames :
  (forall s c h s', CH s c h s' ->
     forall en, tracks_but c (fst s) en -> length (snd s) = length (fst s) ->
     (forall nd rest, nth_error (fst s) c = Some (nd :: rest) -> en c = None \/ en c = Some h) ->
     exists en', good (fst s) (snd s) (fst s') (snd s') en en' /\
       (forall k, frame (fst s) (snd s) (fst s') (snd s') en' k) /\
       (forall nd rest, nth_error (fst s) c = Some (nd :: rest) -> en' c = Some h)) /\
  (forall s c h ns s', WK s c h ns s' ->
     forall en, tracks (fst s) en -> length (snd s) = length (fst s) ->
     nth_error (fst s) c = Some [] ->
     exists en', good (fst s) (snd s) (fst s') (snd s') en en' /\
       (forall k, k <> c -> frame (fst s) (snd s) (fst s') (snd s') en' k) /\
       nth_error (fst s') c = Some [] /\
       exists old new sends, nth_error (snd s) c = Some old /\
         nth_error (snd s') c = Some (old ++ new) /\ built h ns new sends /\ sent en' sends) /\
  (forall s ids h s', LS s ids h s' ->
     forall en, tracks (fst s) en -> length (snd s) = length (fst s) ->
     exists en', good (fst s) (snd s) (fst s') (snd s') en en' /\
       (forall k, frame (fst s) (snd s) (fst s') (snd s') en' k)) /\
  (forall s d h s', CK s d h s' ->
     forall en, tracks (fst s) en -> length (snd s) = length (fst s) ->
     exists en', good (fst s) (snd s) (fst s') (snd s') en en' /\
       (forall k, frame (fst s) (snd s) (fst s') (snd s') en' k) /\ en' d = Some h).
Proof.
  apply header_mind.
  - (* CH *)
    intros hg dg c h nodes hg1 s' Hsw HW IH en Ht Hl Hen. cbn [fst snd] in *.
    destruct (swap_remove_spec _ _ _ _ Hsw) as (Hl1 & [(Hn & Hn1 & Ho)|(Hn & -> & ->)]).
    + destruct nodes as [|nd rest].
      * inversion HW; subst. cbn [fst snd]. exists en. split; [|split].
        -- split; [apply extends_refl|]. split; [|auto].
           intros d ch Hd. destruct (Nat.eq_dec d c) as [->|N].
           ++ rewrite Hn1 in Hd. injection Hd as <-. exact I.
           ++ apply Ht; [now rewrite <- Ho|exact N].
        -- intro k. apply frame_same; [|reflexivity].
           destruct (Nat.eq_dec k c) as [->|N]; [rewrite Hn; exact Hn1|now apply Ho].
        -- intros nd rest C. congruence.
      * destruct (IH (upd en c h)) as (en' & (X & T & L1 & L2) & Fr & Hc & old & new & sends & O & N & Bu & Se).
        -- cbn [fst]. intros d ch Hd. destruct (Nat.eq_dec d c) as [->|N].
           ++ rewrite Hn1 in Hd. injection Hd as <-. exact I.
           ++ apply track1_upd; [exact N|]. apply Ht; [now rewrite <- Ho|exact N].
        -- cbn [fst snd]. congruence.
        -- exact Hn1.
        -- cbn [fst snd] in *.
           assert (Ec : en' c = Some h) by (apply X, upd_same).
           exists en'. split; [|split].
           ++ split; [|split; [exact T|split; congruence]].
              eapply extends_trans; [|exact X]. apply upd_extends. eauto.
           ++ intro k. destruct (Nat.eq_dec k c) as [->|Nk].
              ** intros ch dch A B0. rewrite Hn in A. injection A as <-. rewrite O in B0. injection B0 as <-.
                 exists [], (old ++ new). split; [exact Hc|]. split; [exact N|]. right.
                 split; [discriminate|]. split; [reflexivity|]. exists new, sends, h. auto.
              ** intros ch dch A B0. rewrite <- Ho in A by exact Nk. exact (Fr k Nk ch dch A B0).
           ++ auto.
    + inversion HW; subst. cbn [fst snd]. exists en. split; [|split].
      * split; [apply extends_refl|]. split; [|auto].
        intros d ch Hd. apply Ht; [exact Hd|]. intros ->. congruence.
      * intro k. apply frame_refl.
      * intros nd rest C. congruence.
  - (* WK_nil *)
    intros s c h en Ht Hl Hc. exists en. split; [|split; [|split]].
    + repeat split; auto using extends_refl.
    + intros k _. apply frame_refl.
    + exact Hc.
    + assert (c < length (snd s)).
      { rewrite Hl. apply nth_error_Some. congruence. }
      destruct (nth_error (snd s) c) as [old|] eqn:E; [|apply nth_error_None in E; lia].
      exists old, [], []. rewrite app_nil_r. split; [reflexivity|]. split; [reflexivity|]. split; [constructor|].
      intros d h0 [].
  - (* WK_sink *)
    intros hg dg dg' c h h' f k0 ns s' Hf Ha HW IH en Ht Hl Hc. cbn [fst snd] in *.
    apply add_node_spec in Ha as (La & (och & O & N) & Hoth).
    destruct (IH en Ht ltac:(congruence) Hc) as (en' & (X & T & L1 & L2) & Fr & Hc' & old & new & sends & O2 & N2 & Bu & Se).
    exists en'. split; [|split; [|split]].
    + repeat split; auto; congruence.
    + intros k Nk ch dch A B0. rewrite <- Hoth in B0 by exact Nk. exact (Fr k Nk ch dch A B0).
    + exact Hc'.
    + rewrite N in O2. injection O2 as <-. exists och, (DSink k0 :: new), sends.
      rewrite <- app_assoc in N2. split; [exact O|]. split; [exact N2|]. split; [|exact Se].
      econstructor; eauto.
  - (* WK_merge *)
    intros hg dg dg' c h n ns s' Ha HW IH en Ht Hl Hc. cbn [fst snd] in *.
    apply add_node_spec in Ha as (La & (och & O & N) & Hoth).
    destruct (IH en Ht ltac:(congruence) Hc) as (en' & (X & T & L1 & L2) & Fr & Hc' & old & new & sends & O2 & N2 & Bu & Se).
    exists en'. split; [|split; [|split]].
    + repeat split; auto; congruence.
    + intros k Nk ch dch A B0. rewrite <- Hoth in B0 by exact Nk. exact (Fr k Nk ch dch A B0).
    + exact Hc'.
    + rewrite N in O2. injection O2 as <-. exists och, (DSink pass_sink :: new), sends.
      rewrite <- app_assoc in N2. split; [exact O|]. split; [exact N2|]. split; [|exact Se].
      now constructor.
  - (* WK_split *)
    intros s hg1 dg1 dg' c h ids n ns s' Hn0 HL IHL Ha HW IH en Ht Hl Hc. cbn [fst snd] in *.
    destruct (IHL en Ht Hl) as (en1 & (X1 & T1 & M1 & M2) & Fr1).
    apply add_node_spec in Ha as (La & (och & O & N) & Hoth).
    assert (c < length (snd s)) by (rewrite Hl; apply nth_error_Some; congruence).
    destruct (nth_error (snd s) c) as [old0|] eqn:E0; [|apply nth_error_None in E0; lia].
    destruct (Fr1 c _ _ Hc E0) as (c1 & d1 & A1 & B1 & [[S ->]|(C & _)]); [|congruence].
    apply same_nil in S as ->. rewrite O in B1. injection B1 as ->.
    destruct (IH en1 T1 ltac:(congruence) A1) as (en' & (X & T & L1 & L2) & Fr & Hc' & old & new & sends & O2 & N2 & Bu & Se).
    exists en'. split; [|split; [|split]].
    + split; [eapply extends_trans; eauto|]. split; [exact T|]. split; congruence.
    + intros k Nk. eapply frame_trans; [exact X|apply Fr1|].
      intros ch dch A B0. rewrite <- Hoth in B0 by exact Nk. exact (Fr k Nk ch dch A B0).
    + exact Hc'.
    + rewrite N in O2. injection O2 as <-. exists old0, (DSplit ids :: new), sends.
      rewrite <- app_assoc in N2. split; [reflexivity|]. split; [exact N2|]. split; [|exact Se].
      now constructor.
  - (* WK_goto *)
    intros hg dg dg' c h d ns s1 s' Ha HC IHC HW IH en Ht Hl Hc. cbn [fst snd] in *.
    apply add_node_spec in Ha as (La & (och & O & N) & Hoth).
    destruct (IHC en Ht ltac:(congruence)) as (en1 & (X1 & T1 & M1 & M2) & Fr1 & Ed).
    destruct (Fr1 c _ _ Hc N) as (c1 & d1 & A1 & B1 & [[S ->]|(C & _)]); [|congruence].
    apply same_nil in S as ->.
    destruct (IH en1 T1 ltac:(congruence) A1) as (en' & (X & T & L1 & L2) & Fr & Hc' & old & new & sends & O2 & N2 & Bu & Se).
    exists en'. split; [|split; [|split]].
    + split; [eapply extends_trans; eauto|]. split; [exact T|]. split; congruence.
    + intros k Nk. eapply frame_trans; [exact X| |exact (Fr k Nk)].
      intros ch dch A B0. rewrite <- Hoth in B0 by exact Nk. exact (Fr1 k ch dch A B0).
    + exact Hc'.
    + rewrite B1 in O2. injection O2 as <-. exists och, (DMerge d :: new), ((d, h) :: sends).
      rewrite <- app_assoc in N2. split; [exact O|]. split; [exact N2|]. split; [now constructor|].
      intros d0 h0 [[= <- <-]|Hin]; auto.
  - (* LS_nil *)
    intros s h en Ht Hl. exists en. split; [repeat split; auto using extends_refl|].
    intro k. apply frame_refl.
  - (* LS_cons *)
    intros s i t h s1 s' HC IHC HL IHL en Ht Hl.
    destruct (IHC en) as (en1 & (X1 & T1 & M1 & M2) & Fr1 & _).
    + intros d ch Hd _. now apply Ht.
    + exact Hl.
    + intros nd rest Hn. specialize (Ht _ _ Hn). left.
      destruct nd as [f|[h0|] n|ids n|g]; cbn in Ht; try tauto.
      (* a chain whose merge holds a header cannot be entered *)
      exfalso. inversion HC as [hg dg ? ? nodes hg1 ? Hsw HW]; subst. cbn [fst] in Hn.
      destruct (swap_remove_spec _ _ _ _ Hsw) as (_ & [(Hn' & _)|(Hn' & _)]); [|congruence].
      rewrite Hn in Hn'. injection Hn' as <-. inversion HW.
    + destruct (IHL en1 T1 ltac:(congruence)) as (en' & (X & T & L1 & L2) & Fr).
      exists en'. split.
      * split; [eapply extends_trans; eauto|]. split; [exact T|]. split; congruence.
      * intro k. eapply frame_trans; [exact X|apply Fr1|apply Fr].
  - (* CK_more *)
    intros hg hg' dg d h st n rest Hn Hst Hs en Ht Hl. cbn [fst snd] in *.
    apply list_set_spec in Hs as (A & B0 & C).
    assert (En : en d = None \/ en d = Some h).
    { specialize (Ht _ _ Hn). cbn in Ht. destruct st; destruct Hst as [E|E]; try discriminate;
        [injection E as ->; right|left]; tauto. }
    exists (upd en d h). split; [|split].
    + split; [now apply upd_extends|]. split; [|auto].
      intros k ch Hk. destruct (Nat.eq_dec k d) as [->|N].
      * rewrite B0 in Hk. injection Hk as <-. cbn. rewrite upd_same. split; [reflexivity|lia].
      * apply track1_upd; [exact N|]. apply Ht. now rewrite <- C.
    + intros k ch dch A1 B1. destruct (Nat.eq_dec k d) as [->|N].
      * rewrite Hn in A1. injection A1 as <-. eexists _, dch. split; [exact B0|]. split; [exact B1|].
        left. split; [|reflexivity]. right. eauto 10.
      * exists ch, dch. rewrite C by exact N. auto using same_refl.
    + apply upd_same.
  - (* CK_last *)
    intros hg hg' dg d h st rest s' Hn Hst Hs HC IH en Ht Hl. cbn [fst snd] in *.
    apply list_set_spec in Hs as (A & B0 & C).
    assert (En : en d = None \/ en d = Some h).
    { specialize (Ht _ _ Hn). cbn in Ht. destruct st; destruct Hst as [E|E]; try discriminate;
        [injection E as ->; right|left]; tauto. }
    destruct (IH en) as (en' & (X & T & L1 & L2) & Fr & Ed).
    + intros k ch Hk N. apply Ht. now rewrite <- C.
    + congruence.
    + intros; exact En.
    + exists en'. split; [|split].
      * split; [exact X|]. split; [exact T|]. split; congruence.
      * intro k. eapply frame_trans; [apply extends_refl| |apply Fr].
        intros ch dch A1 B1. destruct (Nat.eq_dec k d) as [->|N].
        -- rewrite Hn in A1. injection A1 as <-. eexists _, dch. split; [exact B0|]. split; [exact B1|].
           left. split; [|reflexivity]. right. eauto 10.
        -- exists ch, dch. rewrite C by exact N. auto using same_refl.
      * eapply Ed. exact B0.
Qed.

Lemma SRC_frames s c h s' :
  SRC s c h s' ->
  forall en, tracks (fst s) en -> length (snd s) = length (fst s) ->
  exists en', good (fst s) (snd s) (fst s') (snd s') en en' /\
    (forall k, frame (fst s) (snd s) (fst s') (snd s') en' k) /\ en' c = Some h.
Proof.
  destruct header_frames as (HCH & _ & _ & HCK).
  intros H en Ht Hl. inversion H as [hg dg ? ? st n rest ? Hn HC|hg dg ? ? nd rest ? Hn Hnd HC]; subst.
  - exact (HCK _ _ _ _ HC en Ht Hl).
  - destruct (HCH _ _ _ _ HC en) as (en' & G & Fr & E).
    + intros d ch Hd _. now apply Ht.
    + exact Hl.
    + intros nd' rest' Hn'. cbn [fst] in *. rewrite Hn in Hn'. injection Hn' as <- <-.
      specialize (Ht _ _ Hn). cbn in Ht. destruct nd; auto. destruct (Hnd st count). reflexivity.
    + exists en'. split; [exact G|]. split; [exact Fr|]. eapply E. exact Hn.
Qed.

Lemma SRCS_frames s i hs s' :
  SRCS s i hs s' ->
  forall en, tracks (fst s) en -> length (snd s) = length (fst s) ->
  exists en', good (fst s) (snd s) (fst s') (snd s') en en' /\
    (forall k, frame (fst s) (snd s) (fst s') (snd s') en' k) /\
    (forall j h, nth_error hs j = Some h -> en' (i + j) = Some h).
Proof.
  induction 1 as [s i|s i h t s1 s' HS HSS IH]; intros en Ht Hl.
  - exists en. split; [repeat split; auto using extends_refl|]. split; [intro; apply frame_refl|].
    intros [|j] h; discriminate.
  - destruct (SRC_frames _ _ _ _ HS en Ht Hl) as (en1 & (X1 & T1 & M1 & M2) & Fr1 & E1).
    destruct (IH en1 T1 ltac:(congruence)) as (en' & (X & T & L1 & L2) & Fr & E).
    exists en'. split; [|split].
    + split; [eapply extends_trans; eauto|]. split; [exact T|]. split; congruence.
    + intro k. eapply frame_trans; [exact X|apply Fr1|apply Fr].
    + intros [|j] h0 Hj; cbn in Hj.
      * injection Hj as <-. rewrite Nat.add_0_r. auto.
      * replace (i + S j) with (S i + j) by lia. auto.
Qed.

Lemma nth_error_repeat' {A} (x : A) n k : nth_error (repeat x n) k = if k <? n then Some x else None.
Proof.
  revert k; induction n as [|n IH]; intros [|k]; cbn [repeat nth_error]; auto.
  rewrite IH. reflexivity.
Qed.

Lemma fresh_tracks hg : fresh hg -> tracks hg (fun _ => None).
Proof.
  intros H d ch Hd. apply nth_error_In in Hd.
  unfold fresh in H. rewrite Forall_forall in H. specialize (H _ Hd).
  destruct ch as [|[f|st n|ids n|c] rest]; cbn; auto.
  inversion H as [|? ? Hf _]; subst. destruct Hf as [-> Hn]. auto.
Qed.

(** The data graph that process_header returns. *)
Theorem process_header_graph hg hs dg :
  fresh hg -> process_header hg hs = Ok dg ->
  length dg = length hg /\ length hs <= length hg /\
  exists entry : nat -> option header,
    (forall i h, nth_error hs i = Some h -> entry i = Some h) /\
    (forall k nodes dnodes, nth_error hg k = Some nodes -> nth_error dg k = Some dnodes ->
       dnodes = [] \/
       exists h sends, entry k = Some h /\ built h nodes dnodes sends /\
         forall d h', In (d, h') sends -> entry d = Some h').
Proof.
  intros Hf H. unfold process_header in H.
  destruct (process_headers _ _ _ _) as [[hg' dg']|e| | |] eqn:E; cbn [bind] in H; try discriminate.
  injection H as <-. apply process_headers_SRCS in E. cbn [snd].
  destruct (SRCS_frames _ _ _ _ E (fun _ => None)) as (en & (_ & _ & L1 & L2) & Fr & En).
  - cbn [fst]. now apply fresh_tracks.
  - cbn [fst snd]. now rewrite repeat_length.
  - cbn [fst snd] in *. rewrite repeat_length in L2. split; [exact L2|]. split.
    + assert (G : forall s i hs s', SRCS s i hs s' -> length (fst s') = length (fst s) ->
                (forall s c h s', SRC s c h s' -> length (fst s') = length (fst s)) ->
                hs = [] \/ i + length hs <= length (fst s)).
      { clear. induction 1 as [s i|s i h t s1 s' HS HSS IH]; intros Hlen HL; [now left|].
        right. assert (i < length (fst s)).
        { inversion HS; subst; cbn [fst]; apply nth_error_Some; congruence. }
        pose proof (HL _ _ _ _ HS) as L. destruct IH as [->|IH]; auto; try congruence.
        - cbn [length]. lia.
        - cbn [length]. lia. }
      assert (HL : forall s c h s', SRC s c h s' -> length (fst s') = length (fst s)).
      { clear. assert (M : (forall s c h s', CH s c h s' -> length (fst s') = length (fst s)) /\
          (forall s c h ns s', WK s c h ns s' -> length (fst s') = length (fst s)) /\
          (forall s ids h s', LS s ids h s' -> length (fst s') = length (fst s)) /\
          (forall s d h s', CK s d h s' -> length (fst s') = length (fst s))).
        { apply header_mind; cbn [fst snd]; intros; auto; try congruence.
          - apply swap_remove_spec in H as [A _]. congruence.
          - now apply list_set_spec in H1 as (A & _).
          - apply list_set_spec in H1 as (A & _). congruence. }
        destruct M as (MCH & _ & _ & MCK). intros s c h s' H. inversion H; subst; eauto. }
      destruct (G _ _ _ _ E L1 HL) as [->|Hle]; [cbn; lia|cbn in Hle; exact Hle].
    + exists en. split; [exact En|]. intros k nodes dnodes Hk Hd.
      assert (Hr : nth_error (repeat (@nil dnode) (length hg)) k = Some []).
      { rewrite nth_error_repeat'. assert (k < length hg) by (apply nth_error_Some; congruence).
        destruct (Nat.ltb_spec k (length hg)); [reflexivity|lia]. }
      destruct (Fr k _ _ Hk Hr) as (c' & d' & A & B0 & [[_ ->]|(_ & _ & new & sends & h & -> & E1 & Bu & Se)]).
      * left. congruence.
      * right. rewrite B0 in Hd. injection Hd as <-. exists h, sends. auto.
Qed.

(** Runs of any graph that succeed (C113). *)
From Verif Require Export DriveFail.
From Verif Require Import GraphProps2.
Local Open Scope nat_scope.

(** [P c n r]: row [r] may arrive at node [n] of chain [c].  Closed: every sink takes what may arrive, and what it
    returns may arrive at the next node; a merge or split passes a row to the first node of its targets and on. *)
Definition taken (g : dgraph) (P : nat -> nat -> row -> Prop) : Prop :=
  (forall c n k past r, node_at g c n = Some (DSink k) -> P c n r ->
     exists rows, sk_write k past r = Ok rows /\ Forall (P c (S n)) rows) /\
  (forall c n nd r, node_at g c n = Some nd -> (forall k, nd <> DSink k) -> P c n r ->
     P c (S n) r /\ forall d, In d (targets nd) -> P d 0 r).
Definition flushes (g : dgraph) : Prop :=
  forall c n k past, node_at g c n = Some (DSink k) -> sk_flush k past = Ok tt.

Section Ok.
Variables (g : dgraph) (P : nat -> nat -> row -> Prop).
Hypothesis (Ht : taken g P) (Hf : flushes g) (He : forall c d, edge g c d -> d < length g).

Lemma each_fine {A} (f : log -> A -> log * res unit) xs : (forall lg x, In x xs -> snd (f lg x) = Ok tt \/ snd (f lg x) = NoFuel) ->
  forall lg, snd (each f xs lg) = Ok tt \/ snd (each f xs lg) = NoFuel.
Proof.
  induction xs as [|x xs IH]; intros H lg; cbn [each]; [now left|].
  pose proof (H lg x (or_introl eq_refl)) as Hx. destruct (f lg x) as [l1 o1]. cbn [snd] in Hx.
  destruct Hx as [-> | ->]; [|now right]. apply IH. intros; apply H; now right.
Qed.
Lemma In_removelast {A} (x : A) l : In x (removelast l) -> In x l.
Proof. induction l as [|a l IH]; [intros []|]. destruct l; [intros []|]. intros [->|H]; [now left|right; now apply IH]. Qed.
Lemma last_In {A} (l : list A) d : l <> [] -> In (last l d) l.
Proof. induction l as [|a l IH]; [congruence|]. intros _. destruct l; [now left|]. right. apply IH. discriminate. Qed.

Lemma row_walk_fine rec c chain : nth_error g c = Some chain ->
  (forall lg d n r, d < length g -> P d n r -> snd (rec lg d n r) = Ok tt \/ snd (rec lg d n r) = NoFuel) ->
  forall nodes n r lg, nodes = skipn n chain -> P c n r ->
    snd (row_walk rec c nodes n r lg) = Ok tt \/ snd (row_walk rec c nodes n r lg) = NoFuel.
Proof.
  intros Hc Hrec. induction nodes as [|nd rest IH]; intros n r lg Hsk HP; cbn [row_walk]; [now left|].
  symmetry in Hsk. destruct (skipn_cons_nth _ _ _ _ Hsk) as [Hnd Hsk']. symmetry in Hsk'.
  assert (Hat : node_at g c n = Some nd) by (unfold node_at; now rewrite Hc).
  assert (Lc : c < length g) by (apply nth_error_Some; congruence).
  destruct nd as [k|d|ds].
  - destruct (proj1 Ht c n k (events_at lg c n) r Hat HP) as (rows & -> & Fr). destruct rows as [|r0 t]; [now left|].
    rewrite Forall_forall in Fr.
    pose proof (each_fine (fun l x => rec l c (S n) x) (removelast (r0 :: t))) as Q.
    specialize (Q (fun l x Hx => Hrec l c (S n) x Lc (Fr x (In_removelast _ _ Hx))) (lg ++ [V c n (EvRow r)])).
    destruct (each _ _ _) as [l2 o2]. cbn [snd] in Q. destruct Q as [-> | ->]; [|now right].
    apply IH; [exact Hsk'|]. apply Fr, last_In. discriminate.
  - destruct (proj2 Ht c n _ r Hat ltac:(discriminate) HP) as [Pn Pd].
    assert (Ed : d < length g) by (apply (He c), (edge_node _ _ _ _ _ Hat); now left).
    pose proof (Hrec (lg ++ [V c n (EvRow r)]) d 0 r Ed (Pd d (or_introl eq_refl))) as Q.
    destruct (rec _ d 0 r) as [l2 o2]. cbn [snd] in Q. destruct Q as [-> | ->]; [|now right]. now apply IH.
  - destruct (proj2 Ht c n _ r Hat ltac:(discriminate) HP) as [Pn Pd].
    pose proof (each_fine (fun l d => rec l d 0 r) ds) as Q.
    specialize (Q (fun l d Hd => Hrec l d 0 r (He c d (edge_node _ _ _ _ _ Hat Hd)) (Pd d Hd)) (lg ++ [V c n (EvRow r)])).
    destruct (each _ _ _) as [l2 o2]. cbn [snd] in Q. destruct Q as [-> | ->]; [|now right]. now apply IH.
Qed.
Lemma process_row_fine F : forall lg c n r, c < length g -> P c n r ->
  snd (process_row F g lg c n r) = Ok tt \/ snd (process_row F g lg c n r) = NoFuel.
Proof.
  induction F as [|F IH]; intros lg c n r Hc HP; cbn [process_row]; [now right|].
  destruct (nth_error g c) as [chain|] eqn:E; [|apply nth_error_None in E; lia]. eapply row_walk_fine; eauto.
Qed.
Lemma flush_walk_fine rec c chain : nth_error g c = Some chain ->
  (forall lg d, d < length g -> snd (rec lg d) = Ok tt \/ snd (rec lg d) = NoFuel) ->
  forall nodes n lg, nodes = skipn n chain ->
    snd (flush_walk rec c nodes n lg) = Ok tt \/ snd (flush_walk rec c nodes n lg) = NoFuel.
Proof.
  intros Hc Hrec. induction nodes as [|nd rest IH]; intros n lg Hsk; cbn [flush_walk]; [now left|].
  symmetry in Hsk. destruct (skipn_cons_nth _ _ _ _ Hsk) as [Hnd Hsk']. symmetry in Hsk'.
  assert (Hat : node_at g c n = Some nd) by (unfold node_at; now rewrite Hc).
  destruct nd as [k|d|ds].
  - rewrite (Hf c n k _ Hat). now apply IH.
  - pose proof (Hrec (lg ++ [V c n EvFlush]) d (He c d (edge_node _ _ _ _ _ Hat (or_introl eq_refl)))) as Q.
    destruct (rec _ d) as [l2 o2]. cbn [snd] in Q. destruct Q as [-> | ->]; [|now right]. now apply IH.
  - pose proof (each_fine rec ds (fun l d Hd => Hrec l d (He c d (edge_node _ _ _ _ _ Hat Hd))) (lg ++ [V c n EvFlush])) as Q.
    destruct (each _ _ _) as [l2 o2]. cbn [snd] in Q. destruct Q as [-> | ->]; [|now right]. now apply IH.
Qed.
Lemma flush_fine F : forall lg c, c < length g -> snd (flush F g lg c) = Ok tt \/ snd (flush F g lg c) = NoFuel.
Proof.
  induction F as [|F IH]; intros lg c Hc; cbn [flush]; [now right|].
  destruct (nth_error g c) as [chain|] eqn:E; [|apply nth_error_None in E; lia]. eapply (flush_walk_fine _ _ chain); eauto.
Qed.
End Ok.

Lemma drive_success_by_chain F g srcs rng s o :
  drive F g srcs rng = (s, o) ->
  (forall src, In src srcs -> readable rng src /\ selected rng src <> []) ->
  (forall lg e, match e with
                | DRow c r => exists src, nth_error (rev srcs) c = Some src /\ In r (selected rng src)
                | DFlush c => c < length srcs
                end ->
        exists lg', apply_ev F g lg e = (lg', Ok tt)) ->
  o = Ok tt.
Proof.
  intros H Hs Hg.
  destruct (drive_cases _ _ _ _ _ _ H) as [(bs & E & L)|(-> & E & ->)].
  - destruct (bufs_facts _ _ _ E) as (P & C & SS & Ok & F2).
    eapply Loop_outcome; [exact L| |].
    + apply Forall_forall. intros bf Hb.
      destruct (Forall2_in_r _ _ _ _ F2 Hb) as (src & Hin & Hp & _ & R).
      apply in_rev in Hin. destruct (Hs _ Hin) as [Hr Hne].
      assert (b_row bf <> None) as Hb1.
      { intro N. apply Hne. rewrite <- Hp. unfold pending. now rewrite N. }
      split; [exact Hb1|]. apply R in Hr. destruct Hr; [contradiction|assumption].
    + intros lg e He. apply Hg. destruct He as [(bf & r & -> & Hb & Hp)|(c & -> & Hc)].
      * apply In_nth_error in Hb as (i & Hi).
        assert (Ei : b_chain bf = i).
        { assert (X : nth_error (map b_chain bs) i = Some (b_chain bf)) by (rewrite nth_error_map, Hi; reflexivity).
          rewrite C in X. assert (i < length srcs) by (rewrite <- (seq_length (length srcs) 0); apply nth_error_Some; congruence).
          apply nth_error_nth with (d := 0) in X. rewrite seq_nth in X by assumption. cbn in X. congruence. }
        rewrite Ei. destruct (nth_error (rev srcs) i) as [src|] eqn:En.
        2:{ apply GraphProps.Forall2_len in F2. apply nth_error_None in En. assert (i < length bs) by (apply nth_error_Some; congruence). lia. }
        pose proof (GraphProps2.Forall2_nth _ _ _ i F2) as X. rewrite En, Hi in X. destruct X as (Hp' & _).
        exists src. rewrite <- Hp'. auto.
      * rewrite C in Hc; apply in_seq in Hc; lia.
  - apply make_bufs_fail in E as (src & Hin & N). apply in_rev in Hin.
    destruct (Hs _ Hin). contradiction.
Qed.

Lemma graph_success g srcs rng P :
  acyclic g -> sinks_return g -> length srcs <= length g -> (forall c d, edge g c d -> d < length g) ->
  taken g P -> flushes g ->
  (forall c src r, nth_error (rev srcs) c = Some src -> In r (selected rng src) -> P c 0 r) ->
  (forall src, In src srcs -> readable rng src /\ selected rng src <> []) ->
  exists F0, forall F, F0 <= F -> snd (drive F g srcs rng) = Ok tt.
Proof.
  intros Ha Hr Hl He Ht Hf HP Hs. destruct (apply_ev_fuel g Ha Hr) as (F00 & K). destruct (K (length srcs)) as (F1 & _ & HF).
  exists F1. intros F Hle. destruct (drive F g srcs rng) as [s o] eqn:E. cbn [snd].
  apply (drive_success_by_chain F g srcs rng s o E Hs). intros lg e Hev.
  assert (Hc : match e with DRow c _ => c < length srcs | DFlush c => c < length srcs end).
  { destruct e as [c r|c]; [|exact Hev]. destruct Hev as (src & Hn & _). rewrite <- rev_length. apply nth_error_Some. congruence. }
  pose proof (HF F lg e Hle Hc) as Nf. enough (snd (apply_ev F g lg e) = Ok tt \/ snd (apply_ev F g lg e) = NoFuel) as Q.
  { destruct (apply_ev F g lg e) as [l2 o2]. cbn [snd] in *. destruct Q as [-> | ->]; [eauto|congruence]. }
  destruct e as [c r|c]; cbn [apply_ev].
  - destruct Hev as (src & Hn & Hin). apply (process_row_fine g P Ht He); [lia|eapply HP; eauto].
  - apply (flush_fine g Hf He). lia.
Qed.

(** Stable sort and the order on paths. *)
From Verif Require Export MultiSpec.

Section Sort.
Context {A : Type} (gt : A -> A -> bool).
Hypothesis asym : forall x y, gt x y = true -> gt y x = false.
Hypothesis le_trans : forall x y z, gt x y = false -> gt y z = false -> gt x z = false.

Lemma insert_perm x l : Permutation (x :: l) (insert_by gt x l).
Proof.
  induction l as [|y l IH]; cbn; [reflexivity|]. destruct (gt x y); [|reflexivity].
  rewrite perm_swap. constructor. exact IH.
Qed.
Lemma sort_perm l : Permutation l (sort_by gt l).
Proof.
  induction l as [|x l IH]; cbn; [constructor|].
  etransitivity; [|apply insert_perm]. constructor. exact IH.
Qed.
Definition srt := StronglySorted (fun x y => gt x y = false).
Lemma insert_sorted x l : srt l -> srt (insert_by gt x l).
Proof.
  induction 1 as [|y l S IH F]; cbn; [repeat constructor|].
  destruct (gt x y) eqn:E.
  - constructor; [exact IH|].
    apply (Permutation_Forall (insert_perm x l)). constructor; [apply asym, E|exact F].
  - constructor; [constructor; assumption|].
    constructor; [exact E|]. eapply Forall_impl; [|exact F]. intros z Hz. eapply le_trans; eassumption.
Qed.
Lemma sort_sorted l : srt (sort_by gt l).
Proof. induction l as [|x l IH]; cbn; [constructor|]. apply insert_sorted, IH. Qed.

(** Stability: elements that are equivalent keep their order.  For any class of mutually
    equivalent elements, the sub-list in that class is unchanged. *)
Lemma insert_stable (p : A -> bool) x l :
  (forall y z, p y = true -> p z = true -> gt y z = false) ->
  filter p (insert_by gt x l) = filter p (x :: l).
Proof.
  intro Hp. induction l as [|y l IH]; [reflexivity|]. cbn [insert_by].
  destruct (gt x y) eqn:E; [|reflexivity].
  cbn [filter] in *. destruct (p y) eqn:Py.
  - destruct (p x) eqn:Px; [rewrite Hp in E by assumption; discriminate|]. now rewrite IH.
  - rewrite IH. reflexivity.
Qed.
Lemma sort_stable (p : A -> bool) l :
  (forall y z, p y = true -> p z = true -> gt y z = false) ->
  filter p (sort_by gt l) = filter p l.
Proof.
  intro Hp. induction l as [|x l IH]; [reflexivity|]. cbn [sort_by fold_right].
  rewrite insert_stable by exact Hp. cbn [filter]. unfold sort_by in IH. rewrite IH. reflexivity.
Qed.
End Sort.

Record good_cmp {A} (c : A -> A -> comparison) : Prop := {
  gc_eq : forall x y, c x y = Eq -> x = y;
  gc_opp : forall x y, c y x = CompOpp (c x y);
  gc_lt : forall x y z, c x y = Lt -> c y z = Lt -> c x z = Lt
}.
Lemma good_refl {A} (c : A -> A -> comparison) x : good_cmp c -> c x x = Eq.
Proof. intros [_ O _]. specialize (O x x). destruct (c x x); auto; discriminate. Qed.

Lemma lex_good {A} (c : A -> A -> comparison) : good_cmp c -> good_cmp (lex_cmp c).
Proof.
  intro G. pose proof G as [Ge Go Gl]. constructor.
  - induction x as [|a x IH]; intros [|d y] H; cbn in H; try discriminate; [reflexivity|].
    destruct (c a d) eqn:E; try discriminate. apply Ge in E. subst. f_equal. auto.
  - induction x as [|a x IH]; intros [|d y]; cbn; try reflexivity.
    rewrite (Go a d). destruct (c a d); cbn; auto.
  - induction x as [|a x IH]; intros [|d y] [|e z] H1 H2; cbn in *; try discriminate; try reflexivity.
    destruct (c a d) eqn:E1; try discriminate.
    + apply Ge in E1. subst d. destruct (c a e); try discriminate; [eauto|reflexivity].
    + destruct (c d e) eqn:E2; try discriminate.
      * apply Ge in E2. subst e. rewrite E1. reflexivity.
      * rewrite (Gl _ _ _ E1 E2). reflexivity.
Qed.

Lemma bytes_cmp_lex x y :
  bytes_cmp x y = lex_cmp (fun a c => (N_of_ascii a ?= N_of_ascii c)%N) x y.
Proof. revert y. induction x as [|a x IH]; intros [|c y]; cbn; try reflexivity. rewrite IH. reflexivity. Qed.
Lemma byte_good : good_cmp (fun a c => (N_of_ascii a ?= N_of_ascii c)%N).
Proof.
  constructor.
  - intros x y H. apply N.compare_eq in H. rewrite <- (ascii_N_embedding x), H. apply ascii_N_embedding.
  - intros. apply N.compare_antisym.
  - intros x y z H1 H2. rewrite N.compare_lt_iff in *. lia.
Qed.
Lemma bytes_good : good_cmp bytes_cmp.
Proof.
  destruct (lex_good _ byte_good) as [Ge Go Gl]. constructor; intros *; rewrite ?bytes_cmp_lex; eauto.
Qed.
Lemma comp_good : good_cmp comp_cmp.
Proof.
  destruct bytes_good as [Ge Go Gl]. constructor.
  - intros [| | |s] [| | |t]; cbn; intro H; try discriminate; try reflexivity. f_equal. auto.
  - intros [| | |s] [| | |t]; cbn; try reflexivity. apply Go.
  - intros [| | |s] [| | |t] [| | |u]; cbn; intros; try discriminate; try reflexivity. eauto.
Qed.

Lemma path_opp x y : path_cmp y x = CompOpp (path_cmp x y).
Proof. apply (gc_opp _ (lex_good _ comp_good)). Qed.
Lemma path_le_trans x y z : path_le x y -> path_le y z -> path_le x z.
Proof.
  unfold path_le, path_cmp. pose proof (lex_good _ comp_good) as G. destruct G as [Ge _ Gl].
  intros H1 H2.
  destruct (lex_cmp comp_cmp (components x) (components y)) eqn:E1; [apply Ge in E1; congruence| |congruence].
  destruct (lex_cmp comp_cmp (components y) (components z)) eqn:E2; [apply Ge in E2; congruence| |congruence].
  rewrite (Gl _ _ _ E1 E2). discriminate.
Qed.

Lemma sorted_rev {A} (R : A -> A -> Prop) l : StronglySorted R l -> StronglySorted (fun x y => R y x) (rev l).
Proof.
  induction 1 as [|x l S IH F]; cbn; [constructor|].
  assert (G : forall l1, StronglySorted (fun x y => R y x) l1 -> Forall (fun y => R x y) l1 ->
              StronglySorted (fun x y => R y x) (l1 ++ [x])).
  { induction 1 as [|y l1 S1 IH1 F1]; intro H; cbn; [repeat constructor|].
    inversion H; subst. constructor; [auto|]. apply Forall_app. split; [exact F1|]. repeat constructor. assumption. }
  apply G; [exact IH|]. apply Forall_rev, F.
Qed.

(** ** The files of a directory *)
Lemma files_in_dir_spec t path entries :
  dt_is_dir t path = true -> dt_read_dir t path = Ok entries ->
  exists files, files_in_dir t path = Ok files /\
    Permutation (filter (fun e => negb (dt_is_dir t e)) entries) (provider_paths files) /\
    StronglySorted path_le (provider_paths files).
Proof.
  intros H1 H2. unfold files_in_dir. rewrite H1, H2. cbn [negb bind].
  eexists. split; [reflexivity|].
  set (gt := fun a c => match path_cmp c a with Gt => true | _ => false end).
  assert (G : forall x y, gt x y = false <-> path_le y x).
  { intros. unfold gt, path_le. destruct (path_cmp y x); split; congruence. }
  split.
  - etransitivity; [apply (sort_perm gt)|]. apply Permutation_rev.
  - assert (S : srt gt (sort_by gt (filter (fun e => negb (dt_is_dir t e)) entries))).
    { apply sort_sorted.
      - intros x y. unfold gt. rewrite (path_opp x y). destruct (path_cmp x y); cbn; congruence.
      - intros x y z. rewrite !G. intros. eapply path_le_trans; eassumption. }
    apply sorted_rev in S. revert S. unfold provider_paths. generalize (rev (sort_by gt (filter (fun e => negb (dt_is_dir t e)) entries))).
    induction 1 as [|x l S IH F]; constructor; auto.
    eapply Forall_impl; [|exact F]. intros y. cbn. apply G.
Qed.

(** ** Entries of one directory are ordered by their names *)
Definition plain_name (n : bytes) : Prop :=
  n <> [] /\ n <> b "." /\ n <> b ".." /\ ~ In "/"%char n.

Lemma split_slash_app d n : split_slash (d ++ "/"%char :: n) = split_slash d ++ split_slash n.
Proof.
  induction d as [|c d IH]; [reflexivity|]. cbn [app split_slash].
  destruct (Ascii.eqb c "/"); [rewrite IH; reflexivity|].
  rewrite IH. destruct (split_slash d) eqn:E; [|reflexivity].
  exfalso. clear - E. destruct d as [|x d]; cbn in E; [discriminate|].
  destruct (Ascii.eqb x "/"); [discriminate|]. destruct (split_slash d); discriminate.
Qed.
Lemma split_slash_plain n : ~ In "/"%char n -> split_slash n = [n].
Proof.
  induction n as [|c n IH]; intro H; [reflexivity|]. cbn [split_slash].
  destruct (Ascii.eqb c "/") eqn:E; [apply Ascii.eqb_eq in E; subst; exfalso; apply H; left; reflexivity|].
  rewrite IH; [reflexivity|]. intro; apply H; right; assumption.
Qed.
Lemma components_join d n : d <> [] -> plain_name n ->
  components (d ++ "/"%char :: n) = components d ++ [Normal n].
Proof.
  intros Hd (N1 & N2 & N3 & N4). unfold components.
  rewrite split_slash_app, (split_slash_plain n N4).
  assert (I : inner_component n = [Normal n]).
  { unfold inner_component. rewrite (proj2 (bytes_eqb_neq n []) N1), (proj2 (bytes_eqb_neq n (b ".")) N2),
      (proj2 (bytes_eqb_neq n (b "..")) N3). reflexivity. }
  destruct (split_slash d) as [|s r] eqn:E.
  - exfalso. clear - E. destruct d as [|x d]; cbn in E; [discriminate|].
    destruct (Ascii.eqb x "/"); [discriminate|]. destruct (split_slash d); discriminate.
  - destruct d as [|c d]; [congruence|]. cbn [app].
    rewrite map_app, concat_app. cbn [map concat]. rewrite I, app_nil_r. rewrite app_assoc. f_equal.
Qed.
Lemma lex_cmp_prefix {A} (c : A -> A -> comparison) p x y :
  good_cmp c -> lex_cmp c (p ++ x) (p ++ y) = lex_cmp c x y.
Proof. intro G. induction p as [|a p IH]; [reflexivity|]. cbn. rewrite good_refl by exact G. exact IH. Qed.
Lemma path_cmp_join d x y : d <> [] -> plain_name x -> plain_name y ->
  path_cmp (d ++ "/"%char :: x) (d ++ "/"%char :: y) = bytes_cmp x y.
Proof.
  intros Hd Hx Hy. unfold path_cmp. rewrite !components_join by assumption.
  rewrite lex_cmp_prefix by apply comp_good. cbn. destruct (bytes_cmp x y); reflexivity.
Qed.

(** A run that succeeds has read every source without failure. *)
From Verif Require Export DriveTop.

Lemma Loop_ok_readable F g rng bs s s' :
  Loop F g rng bs s s' (Ok tt) -> Forall (fun bf => readable rng (b_src bf)) bs.
Proof.
  intro H. remember (Ok tt) as o eqn:Eo. revert Eo.
  induction H as [s|bs s l1 bf l2 P Hn
      |bs s s1 o l1 bf l2 r P Hr Hh Ho
      |bs s s1 e l1 bf l2 r P Hr Hh Hm He
      |bs s s1 s' o l1 bf bf' l2 r r' P Hr Hh Hm Hc Hr' Ht HL IH
      |bs s s1 s2 o l1 bf l2 r src P Hr Hh Hm Hh2 Ho
      |bs s s1 s2 s' o l1 bf l2 r src P Hr Hh Hm Hh2 HL IH]; intros Eo; try congruence.
  - constructor.
  - destruct e; discriminate.
  - specialize (IH Eo). destruct P as (-> & _). apply Forall_app in IH as [A B].
    inversion B; subst. apply Forall_app. split; auto. constructor; auto.
    pose proof (match_next_row_spec rng (b_src bf)) as M. rewrite Hm in M. apply M. assumption.
  - specialize (IH Eo). destruct P as (-> & _). apply Forall_app in IH as [A B].
    apply Forall_app. split; auto. constructor; auto.
    pose proof (match_next_row_spec rng (b_src bf)) as M. rewrite Hm in M. apply M.
Qed.
Lemma drive_ok_readable F g srcs rng s :
  drive F g srcs rng = (s, Ok tt) ->
  forall src, In src srcs -> readable rng src /\ selected rng src <> [].
Proof.
  intros H src Hi. split.
  - destruct (drive_cases _ _ _ _ _ _ H) as [(bs & E & L)|(-> & E & E')]; [|destruct (get_row_buffers rng srcs); discriminate].
    destruct (bufs_facts _ _ _ E) as (_ & _ & _ & _ & F2).
    apply Loop_ok_readable in L.
    assert (Hr : In src (rev srcs)) by (apply in_rev; rewrite rev_involutive; exact Hi).
    clear - F2 L Hr. induction F2 as [|x bf xs bs (_ & _ & R) F2 IH]; [destruct Hr|].
    inversion L; subst. destruct Hr as [->|Hr]; [apply R; auto|auto].
  - intro E. apply (drive_empty_source _ _ _ _ _ _ H); [|reflexivity]. exists src. auto.
Qed.

(** ** The order of rows of equal time *)
Fixpoint handed (ds : list devent) : list (nat * row) :=
  match ds with
  | [] => []
  | DRow c r :: t => (c, r) :: handed t
  | DFlush _ :: t => handed t
  end.
Lemma handed_rows ds : map snd (handed ds) = rows_handed ds.
Proof. induction ds as [|[c r|c] ds IH]; cbn; congruence. Qed.
Lemma handed_to c ds : map snd (filter (fun p => fst p =? c) (handed ds)) = rows_to c ds.
Proof. induction ds as [|[d r|d] ds IH]; cbn; auto. destruct (d =? c); cbn; congruence. Qed.
Lemma handed_app x y : handed (x ++ y) = handed x ++ handed y.
Proof. induction x as [|[c r|c] x IH]; cbn; congruence. Qed.
Lemma handed_split ds a c r z : handed ds = a ++ (c, r) :: z ->
  exists pre post, ds = pre ++ DRow c r :: post /\ handed pre = a /\ handed post = z.
Proof.
  revert a. induction ds as [|[d x|d] ds IH]; intros a H; cbn in H.
  - destruct a; discriminate.
  - destruct a as [|p a]; cbn in H; injection H as <- H.
    + exists [], ds. subst. auto.
    + destruct (IH _ H) as (pre & post & -> & <- & <-). exists (DRow d x :: pre), post. auto.
  - destruct (IH _ H) as (pre & post & -> & <- & <-). exists (DFlush d :: pre), post. auto.
Qed.

(** A list of tagged elements in the order of the tags is the concatenation of its parts. *)
Lemma tags_concat {A} n (l : list (nat * A)) :
  StronglySorted (fun p q => fst p <= fst q) l -> (forall p, In p l -> fst p < n) ->
  map snd l = concat (map (fun c => map snd (filter (fun p => fst p =? c) l)) (seq 0 n)).
Proof.
  revert l. induction n as [|n IH]; intros l S B.
  - destruct l as [|p l]; [reflexivity|]. specialize (B p (or_introl eq_refl)). lia.
  - rewrite seq_S, map_app, concat_app. cbn [map concat plus].
    assert (D : exists x y, l = x ++ y /\ (forall p, In p x -> fst p < n) /\ (forall p, In p y -> fst p = n)).
    { clear IH. induction S as [|p l S IH F]; [exists [], []; cbn; intuition|].
      destruct IH as (x & y & -> & X & Y); [intros; apply B; now right|].
      destruct (Nat.lt_ge_cases (fst p) n) as [L|L].
      - exists (p :: x), y. split; [reflexivity|]. split; [|exact Y]. intros q [<-|Q]; auto.
      - exists [], (p :: x ++ y). split; [reflexivity|]. split; [intros q []|].
        rewrite Forall_forall in F. intros q [<-|Q].
        + specialize (B p (or_introl eq_refl)). lia.
        + specialize (F q Q). specialize (B q (or_intror Q)). lia. }
    destruct D as (x & y & -> & X & Y).
    assert (Fx : filter (fun p : nat * A => fst p =? n) x = []).
    { clear - X. induction x as [|p x IH]; [reflexivity|]. cbn. rewrite IH by (intros; apply X; now right).
      specialize (X p (or_introl eq_refl)). destruct (Nat.eqb_spec (fst p) n); [lia|reflexivity]. }
    assert (Fy : filter (fun p : nat * A => fst p =? n) y = y).
    { clear - Y. induction y as [|p y IH]; [reflexivity|]. cbn. rewrite IH by (intros; apply Y; now right).
      specialize (Y p (or_introl eq_refl)). destruct (Nat.eqb_spec (fst p) n); [reflexivity|lia]. }
    rewrite filter_app, Fx, Fy, !map_app. cbn [app]. rewrite app_nil_r. f_equal.
    rewrite (IH x).
    + f_equal. apply map_ext_in. intros c Hc. apply in_seq in Hc. rewrite filter_app.
      assert (Fz : filter (fun p : nat * A => fst p =? c) y = []).
      { clear - Y Hc. induction y as [|p y IH]; [reflexivity|]. cbn. rewrite IH by (intros; apply Y; now right).
        specialize (Y p (or_introl eq_refl)). destruct (Nat.eqb_spec (fst p) c); [lia|reflexivity]. }
      rewrite Fz, app_nil_r. reflexivity.
    + clear - S. induction x as [|p x IH]; [constructor|]. cbn in S. inversion S as [|? ? S' F]; subst. constructor; auto.
      apply Forall_app in F. tauto.
    + exact X.
Qed.

Lemma filter_map_snd {A B} (f : B -> bool) (l : list (A * B)) : filter f (map snd l) = map snd (filter (fun p => f (snd p)) l).
Proof. induction l as [|p l IH]; [reflexivity|]. cbn. destruct (f (snd p)); cbn; congruence. Qed.
Lemma filter_swap {A} (f g : A -> bool) l : filter f (filter g l) = filter g (filter f l).
Proof. induction l as [|x l IH]; [reflexivity|]. cbn. destruct (f x) eqn:E, (g x) eqn:E'; cbn; rewrite ?E, ?E'; congruence. Qed.
Lemma ssorted_pairs {A} (R : A -> A -> Prop) l :
  (forall a x m y z, l = a ++ x :: m ++ y :: z -> R x y) -> StronglySorted R l.
Proof.
  induction l as [|x l IH]; intro H; [constructor|]. constructor.
  - apply IH. intros a u m v z ->. exact (H (x :: a) u m v z eq_refl).
  - apply Forall_forall. intros y Hy. apply in_split in Hy as (m & z & ->). exact (H [] x m y z eq_refl).
Qed.
Lemma filter_split {A} (f : A -> bool) l : forall a x z, filter f l = a ++ x :: z ->
  exists p q, l = p ++ x :: q /\ filter f p = a /\ filter f q = z /\ f x = true.
Proof.
  induction l as [|y l IH]; intros a x z H; cbn in H; [destruct a; discriminate|].
  destruct (f y) eqn:E.
  - destruct a as [|u a]; cbn in H; injection H as -> H.
    + exists [], l. subst. auto.
    + destruct (IH _ _ _ H) as (p & q & -> & <- & <- & X). exists (u :: p), q. cbn. rewrite E. auto.
  - destruct (IH _ _ _ H) as (p & q & -> & <- & <- & X). exists (y :: p), q. cbn. rewrite E. auto.
Qed.
Lemma seq_rev_map {A B} (f : A -> B) (l : list A) (g : nat -> B) :
  (forall i x, nth_error l i = Some x -> g (length l - 1 - i) = f x) ->
  map g (seq 0 (length l)) = map f (rev l).
Proof.
  intro H. apply nth_error_ext. intro k. rewrite !nth_error_map.
  destruct (Nat.lt_ge_cases k (length l)) as [L|L].
  - assert (E : nth_error (seq 0 (length l)) k = Some k).
    { rewrite (nth_error_nth' _ 0) by (rewrite seq_length; exact L). rewrite seq_nth by exact L. reflexivity. }
    rewrite E. cbn [option_map].
    destruct (nth_error l (length l - 1 - k)) as [x|] eqn:Ex; [|apply nth_error_None in Ex; lia].
    assert (Er : nth_error (rev l) k = Some x).
    { rewrite (nth_error_nth' _ x) by (rewrite rev_length; exact L). rewrite rev_nth by exact L.
      apply (nth_error_nth _ _ x) in Ex. rewrite <- Ex at 2. f_equal. f_equal. lia. }
    rewrite Er. cbn [option_map]. f_equal. rewrite <- (H _ _ Ex). f_equal. lia.
  - assert (E1 : nth_error (seq 0 (length l)) k = None) by (apply nth_error_None; rewrite seq_length; exact L).
    assert (E2 : nth_error (rev l) k = None) by (apply nth_error_None; rewrite rev_length; exact L).
    rewrite E1, E2. reflexivity.
Qed.

Lemma drive_ties F g srcs rng s :
  drive F g srcs rng = (s, Ok tt) ->
  (forall src, In src srcs -> time_ordered (rows_before_failure src)) ->
  forall t, filter (fun r => (ts r =? t)%N) (rows_handed (r_devs s)) =
            concat (map (fun src => filter (fun r => (ts r =? t)%N) (selected rng src)) (rev srcs)).
Proof.
  intros H Ho t. rewrite <- handed_rows, filter_map_snd.
  set (l := filter (fun p : nat * row => (ts (snd p) =? t)%N) (handed (r_devs s))).
  assert (B : forall p, In p (handed (r_devs s)) -> fst p < length srcs).
  { intros [c r] Hp. cbn. apply in_split in Hp as (x & y & E). apply handed_split in E as (pre & post & E & _).
    apply (drive_chains _ _ _ _ _ _ H (DRow c r)). rewrite E. apply in_elt. }
  rewrite (tags_concat (length srcs) l).
  - f_equal. apply seq_rev_map. intros i src Hi.
    destruct (drive_rows _ _ _ _ _ _ H _ _ Hi) as [_ E]. rewrite <- (E eq_refl), <- handed_to, filter_map_snd.
    unfold l. f_equal. apply filter_swap.
  - apply ssorted_pairs. intros a [c r] m [c' r2] z E. cbn [fst].
    assert (E' : l = (a ++ (c, r) :: m) ++ (c', r2) :: z) by (rewrite E, <- app_assoc; reflexivity). clear E.
    unfold l in E'. apply filter_split in E' as (p & q & Eh & Ep & _ & T2). cbn [snd] in T2.
    apply filter_split in Ep as (p1 & p2 & -> & _ & _ & T1). cbn [snd] in T1.
    apply N.eqb_eq in T1, T2.
    rewrite <- app_assoc in Eh. cbn [app] in Eh.
    pose proof (handed_split _ _ _ _ _ Eh) as (pre & post & Ed & E1 & E2).
    apply handed_split in E2 as (mid & post' & -> & E3 & _).
    assert (Hc' : c' < length srcs) by (apply (B (c', r2)); rewrite Eh; apply in_or_app; right; right; apply in_elt).
    assert (Hc : c < length srcs) by (apply (B (c, r)); rewrite Eh; apply in_elt).
    set (j := length srcs - 1 - c').
    destruct (nth_error srcs j) as [src|] eqn:Ej; [|apply nth_error_None in Ej; unfold j in Ej; lia].
    destruct (drive_rows _ _ _ _ _ _ H _ _ Ej) as [_ Es]. specialize (Es eq_refl).
    replace (length srcs - 1 - j) with c' in Es by (unfold j; lia).
    (* what is pending at that moment *)
    assert (Sp : exists x, selected rng src = rows_to c' pre ++ x /\ In r2 x).
    { rewrite <- Es, Ed. clear. revert r2.
      assert (A : forall u v, rows_to c' (u ++ v) = rows_to c' u ++ rows_to c' v).
      { induction u as [|[d y|d] u IH]; intro v; cbn; auto. destruct (d =? c'); cbn; congruence. }
      intro r2. rewrite A. eexists. split; [reflexivity|]. cbn [rows_to].
      assert (I : In r2 (rows_to c' (mid ++ DRow c' r2 :: post'))).
      { rewrite A. apply in_or_app. right. cbn. rewrite Nat.eqb_refl. now left. }
      destruct (c =? c'); [now right|exact I]. }
    destruct Sp as (x & Ex & Ix). destruct x as [|r' x]; [destruct Ix|].
    assert (Hn : nth_error (selected rng src) (length (rows_to (length srcs - 1 - j) pre)) = Some r').
    { replace (length srcs - 1 - j) with c' by (unfold j; lia).
      rewrite Ex, nth_error_app2, Nat.sub_diag by lia. reflexivity. }
    assert (Ls : (ts r' <= ts r2)%N).
    { assert (So : StronglySorted ts_le (selected rng src)).
      { specialize (Ho src (nth_error_In _ _ Ej)). unfold selected.
        apply Sorted_StronglySorted in Ho; [|exact ts_le_trans].
        rewrite (until_end_sorted _ _ Ho), filter_filter.
        clear - Ho. induction Ho as [|y l Ho IH Fa]; [constructor|]. cbn [filter].
        destruct (_ && _); [|exact IH]. constructor; [exact IH|].
        rewrite Forall_forall in *. intros v Hv. apply filter_In in Hv. apply Fa. tauto. }
      rewrite Ex in So. clear - So Ix. induction (rows_to c' pre) as [|y l IH]; cbn in So; inversion So; subst; auto.
      destruct Ix as [->|Ix]; [apply N.le_refl|]. match goal with F : Forall _ x |- _ => rewrite Forall_forall in F; exact (F _ Ix) end. }
    destruct (drive_pick _ _ _ _ _ _ H pre c r _ Ed j src r' Ej Hn) as [L|[A B']]; [lia|]. unfold j in B'. lia.
  - intros p Hp. apply B. unfold l in Hp. apply filter_In in Hp. tauto.
Qed.

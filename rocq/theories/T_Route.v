(** Theorems about whole graphs of header sinks and sinks (C98-C100): routes, filtering and
    merging, splitting. *)
From Verif Require Import SplitProofs FilterProofs T_Filters.

(** C98: in a run that succeeds, what a node is called with is, call by call of the driver, what
    the route of that call brings it: nothing is lost, duplicated or reordered on the way … *)
Theorem C98_routes : forall F g srcs rng s acts d m,
  drive F g srcs rng = (s, Ok tt) -> acyclic g -> row_by_row g acts -> node_at g d m <> None ->
  exists outs, Forall2 (fun p => route g acts d m (fst p) 0 (snd p)) (map handing (r_devs s)) outs /\
    events_at (r_log s) d m = concat outs.
Proof. exact drive_routes. Qed.
Print Assumptions C98_routes.
(** … routes are functions of the graph alone … *)
Theorem C98_one_route : forall g acts d m c n e o o',
  route g acts d m c n e o -> route g acts d m c n e o' -> o = o'.
Proof. exact (fun g acts d m c n e o o' H H' => route_det g acts d m c n e o H o' H'). Qed.
Print Assumptions C98_one_route.
(** … and the calls of the driver are those of the sources: each source's rows in range, in order,
    and one flush after the last, the sources interleaved by time. *)
Theorem C98_driver_calls : forall F g srcs rng s,
  drive F g srcs rng = (s, Ok tt) ->
  exists l, interleaves rng srcs l /\
    ((forall src, In src srcs -> time_ordered (rows_before_failure src)) -> by_time l) /\
    map handing (r_devs s) = map (fun p => (length srcs - 1 - fst p, snd p)) l.
Proof.
  intros F g srcs rng s H. destruct (drive_interleaves _ _ _ _ _ H) as [A C].
  exists (by_source (length srcs) (r_devs s)). split; [exact A|]. split; [exact C|].
  unfold by_source. rewrite map_map. apply map_ext_in. intros dv Hd. cbn [fst snd].
  assert (fst (handing dv) < length srcs).
  { apply (drive_chains _ _ _ _ _ _ H) in Hd. now destruct dv. }
  destruct (handing dv) as [c e]. cbn [fst snd] in *. f_equal. lia.
Qed.
Print Assumptions C98_driver_calls.

(** C99: one chain of header sinks per input, merged into a last chain. *)
Theorem C99_filter_and_merge : forall F chains post out hs srcs rng s hm hp ho kss actss kp ap k,
  chains <> [] -> length hs = length chains -> length srcs = length chains ->
  length kss = length chains -> length actss = length chains ->
  Forall2 (fun p q => steps (fst p) (snd p) hm (fst q) (snd q)) (combine hs chains) (combine kss actss) ->
  steps hm post hp kp ap -> out hp = Ok (ho, k) ->
  run_driver F srcs (fan_in chains post out) rng hs = (s, Ok tt) ->
  exists l, interleaves rng srcs l /\
    ((forall src, In src srcs -> time_ordered (rows_before_failure src)) -> by_time l) /\
    events_at (r_log s) (length chains) (S (length post)) =
    flat_map (fun p => kept_ev (through (nth (length srcs - 1 - fst p) actss [] ++ ap)) (snd p)) l.
Proof.
  intros F chains post out hs srcs rng s hm hp ho kss actss kp ap k Hne Lh Ls Lk La HF Hp Ho H.
  unfold run_driver in H. rewrite Ls in H.
  rewrite (fan_new chains post out hs hm hp ho kp ap k kss actss Hne Lh Lk La HF Hp Ho) in H.
  assert (Ha : Forall2 (Forall2 acts_as) kss actss).
  { clear - HF Lh Lk La. rewrite <- Lh in Lk, La. assert (Lc : length hs = length chains) by exact Lh. clear Lh.
    revert chains kss actss Lc Lk La HF.
    induction hs as [|h hs IH]; intros [|c chains] [|ks kss] [|a actss] Lc Lk La HF; try discriminate; [constructor|].
    cbn [combine] in HF. inversion HF; subst. constructor; [eapply steps_acts; eauto|].
    apply (IH chains); auto. }
  pose proof (steps_acts _ _ _ _ _ Hp) as Hpa.
  assert (Lpost : length post = length kp) by (clear - Hp; induction Hp; cbn; congruence).
  rewrite <- Lk in H. change (map (dch (length kss)) kss ++ [last_d kp k]) with (fan_data kss kp k) in H.
  destruct (drive_interleaves _ _ _ _ _ H) as [A C].
  exists (by_source (length srcs) (r_devs s)). split; [exact A|]. split; [exact C|].
  rewrite Lpost, <- Lk, (fan_rows kss actss kp ap k Ha Hpa F srcs rng s H) by congruence.
  replace (length srcs) with (length kss) by congruence. reflexivity.
Qed.
Print Assumptions C99_filter_and_merge.

(** Nothing else is there, and it is in time order. *)
Lemma flat_map_perm {A B} (f : nat -> A -> list B) n (l : list (nat * A)) :
  (forall p, In p l -> fst p < n) ->
  Permutation (flat_map (fun p => f (fst p) (snd p)) l)
    (concat (map (fun i => flat_map (f i) (map snd (filter (fun p => fst p =? i) l))) (seq 0 n))).
Proof.
  induction l as [|[i x] l IH]; intro Hn.
  - cbn. clear. generalize 0. induction n as [|n IH]; intro k; cbn; auto.
  - specialize (IH ltac:(intros; apply Hn; now right)). specialize (Hn _ (or_introl eq_refl)). cbn [fst] in Hn.
    cbn [flat_map fst snd].
    assert (Es : seq 0 n = seq 0 i ++ i :: seq (S i) (n - S i)).
    { replace n with (i + (1 + (n - S i))) at 1 by lia. rewrite seq_app. cbn. reflexivity. }
    rewrite Es, map_app, concat_app in IH |- *. cbn [map concat filter fst snd] in *.
    rewrite Nat.eqb_refl. cbn [map flat_map].
    assert (Eo : forall js, ~ In i js ->
      map (fun j => flat_map (f j) (map snd (if i =? j then (i, x) :: filter (fun p => fst p =? j) l
                                             else filter (fun p => fst p =? j) l))) js =
      map (fun j => flat_map (f j) (map snd (filter (fun p => fst p =? j) l))) js).
    { intros js Hj. apply map_ext_in. intros j Hin. destruct (Nat.eqb_spec i j) as [->|]; [contradiction|reflexivity]. }
    rewrite !Eo by (rewrite in_seq; lia).
    rewrite IH. rewrite <- app_assoc. rewrite app_assoc. rewrite (Permutation_app_comm (f i x)). rewrite <- app_assoc.
    reflexivity.
Qed.
Lemma ev_rows_flat {A} (f : A -> list event) l : ev_rows (flat_map f l) = flat_map (fun x => ev_rows (f x)) l.
Proof.
  assert (E : forall x y, ev_rows (x ++ y) = ev_rows x ++ ev_rows y).
  { induction x as [|[r|] x IH]; intro y; cbn; congruence. }
  induction l as [|x l IH]; [reflexivity|]. cbn. now rewrite E, IH.
Qed.
Lemma kept_rows f rows : flat_map (fun e => ev_rows (kept_ev f e)) (map EvRow rows ++ [EvFlush]) = kept f rows.
Proof.
  unfold kept. induction rows as [|r rows IH]; [reflexivity|]. cbn. rewrite IH. destruct (f r); reflexivity.
Qed.

Theorem C99_exactly_the_kept_rows : forall rng srcs actss ap l evs,
  interleaves rng srcs l ->
  evs = flat_map (fun p => kept_ev (through (nth (length srcs - 1 - fst p) actss [] ++ ap)) (snd p)) l ->
  Permutation (ev_rows evs)
    (concat (map (fun i => kept (through (nth (length srcs - 1 - i) actss [] ++ ap))
                             (selected rng (nth i srcs []))) (seq 0 (length srcs)))).
Proof.
  intros rng srcs actss ap l evs [A B] ->. rewrite ev_rows_flat.
  rewrite (flat_map_perm (fun i e => ev_rows (kept_ev (through (nth (length srcs - 1 - i) actss [] ++ ap)) e))
             (length srcs) l B).
  rewrite (map_ext_in _ (fun i => kept (through (nth (length srcs - 1 - i) actss [] ++ ap))
                             (selected rng (nth i srcs [])))); [reflexivity|].
  intros i Hi. apply in_seq in Hi. rewrite (A i (nth i srcs [])) by (apply nth_error_nth'; lia).
  apply kept_rows.
Qed.
Print Assumptions C99_exactly_the_kept_rows.

Theorem C99_time_order : forall l g,
  by_time l -> (forall i r r', g i r = Some r' -> ts r' = ts r) ->
  time_ordered (ev_rows (flat_map (fun p => kept_ev (g (fst p)) (snd p)) l)).
Proof.
  intros l g B Hg. unfold time_ordered. apply StronglySorted_Sorted.
  induction l as [|[i e] l IH]; [constructor|].
  assert (B' : by_time l). { intros a j r m k r' z ->. apply (B ((i, e) :: a) j r m k r' z). reflexivity. }
  specialize (IH B'). cbn [flat_map fst snd].
  destruct e as [r|]; [|exact IH]. cbn [kept_ev]. destruct (g i r) as [r1|] eqn:E; [|exact IH].
  cbn [app ev_rows]. constructor; [exact IH|]. apply Forall_forall. intros x Hx.
  assert (X : exists j r2, In (j, EvRow r2) l /\ g j r2 = Some x).
  { clear - Hx. induction l as [|[j e] l IH]; [destruct Hx|]. cbn [flat_map fst snd] in Hx.
    destruct e as [r2|]; cbn [kept_ev] in Hx.
    - destruct (g j r2) as [y|] eqn:E2; cbn in Hx; [destruct Hx as [->|Hx]; [exists j, r2; split; [now left|exact E2]|]|];
        destruct (IH Hx) as (k & r3 & A & C); exists k, r3; (split; [now right|exact C]).
    - cbn in Hx. destruct (IH Hx) as (k & r3 & A & C). exists k, r3. split; [now right|exact C]. }
  destruct X as (j & r2 & Hin & E2). apply in_split in Hin as (m & z & ->).
  unfold ts_le. rewrite (Hg _ _ _ E), (Hg _ _ _ E2). destruct (B [] i r m j r2 z eq_refl); lia.
Qed.
Print Assumptions C99_time_order.

Lemma steps_len h fs h' ks acts : steps h fs h' ks acts -> length fs = length ks.
Proof. induction 1; cbn; congruence. Qed.

(** C100: one input, split to several outputs. *)
Theorem C100_split : forall F pre outs h src rng s h1 kp ap actss,
  outs <> [] -> steps h pre h1 kp ap ->
  Forall2 (fun o acts => exists h2 ks ho k, steps h1 (fst o) h2 ks acts /\ snd o h2 = Ok (ho, k)) outs actss ->
  run_driver F [src] (fan_out pre outs) rng [h] = (s, Ok tt) ->
  forall j o acts, nth_error outs j = Some o -> nth_error actss j = Some acts ->
    events_at (r_log s) (S j) (length (fst o)) =
    map EvRow (kept (through (ap ++ acts)) (selected rng src)) ++ [EvFlush].
Proof.
  intros F pre outs h src rng s h1 kp ap actss Hne Hp HF H j o acts Hj Ha.
  assert (Q : exists qs, Forall2 (fun o q => out_ok h1 o (fst (fst q)) (snd (fst q)) (snd q)) outs qs /\ map snd qs = actss).
  { clear - HF. induction HF as [|o acts outs actss (h2 & ks & ho & k & Hs & Hk) HF (qs & A & C)].
    - exists []. split; [constructor|reflexivity].
    - exists ((ks, k, acts) :: qs). split; [constructor; auto; exists h2, ho; auto|cbn; congruence]. }
  destruct Q as (qs & HQ & <-).
  unfold run_driver in H. cbn [length] in H. rewrite (split_new pre outs h h1 kp ap qs Hne Hp HQ) in H.
  rewrite nth_error_map in Ha. destruct (nth_error qs j) as [q|] eqn:Eq; [|discriminate].
  cbn in Ha. injection Ha as <-.
  assert (Lq : Forall (fun q => Forall2 acts_as (fst (fst q)) (snd q)) qs).
  { clear - HQ. induction HQ as [|o q outs qs (h2 & ho & Hs & _) HQ IH]; constructor; auto. eapply steps_acts; eauto. }
  assert (Lo : length (fst o) = length (fst (fst q))).
  { destruct (F2_nth _ _ _ _ _ HQ Hj) as (q' & Eq' & (h2 & ho & Hs & _)). assert (q' = q) as -> by congruence.
    exact (steps_len _ _ _ _ _ Hs). }
  rewrite Lo, (split_rows kp ap qs (steps_acts _ _ _ _ _ Hp) Lq F [src] rng s j q H eq_refl Eq).
  destruct (drive_interleaves _ _ _ _ _ H) as [[A B] _]. cbn [length] in *.
  specialize (A 0 src eq_refl).
  assert (Ef : filter (fun p => fst p =? 0) (by_source 1 (r_devs s)) = by_source 1 (r_devs s)).
  { clear - B. induction (by_source 1 (r_devs s)) as [|p l IH]; [reflexivity|]. cbn.
    pose proof (B p (or_introl eq_refl)). destruct (Nat.eqb_spec (fst p) 0); [|lia]. f_equal. apply IH. intros; apply B; now right. }
  rewrite Ef in A. rewrite A. clear. unfold kept.
  induction (selected rng src) as [|r l IH]; [reflexivity|]. cbn. rewrite IH. destruct (through (ap ++ snd q) r); reflexivity.
Qed.
Print Assumptions C100_split.

(** The three filters as steps. *)
Theorem C99_filter_steps :
  (forall name v h i, first_named (h_names h) name i ->
     exists k f, row_filter_equal name v h = Ok (h, k) /\ acts_as k f /\
       forall r x, nth_error (vals r) i = Some x ->
         ~ (type_of x = type_of v /\ (type_of x = Some TBoolean \/ type_of x = Some TByteBuf)) ->
         (val_eq x v -> f r = Some r) /\ (~ val_eq x v -> f r = None)) /\
  (forall name v h i, first_named (h_names h) name i ->
     exists k f, row_filter_greater name v h = Ok (h, k) /\ acts_as k f /\
       forall r x, nth_error (vals r) i = Some x -> comparable x v ->
         (val_lt v x -> f r = Some r) /\ (~ val_lt v x -> f r = None)) /\
  (forall name h i, first_named (h_names h) name i -> length (h_types h) = length (h_names h) ->
     exists h' k f, column_filter_delete name h = Ok (h', k) /\ acts_as k f /\
       without i (h_names h) (h_names h') /\ without i (h_types h) (h_types h') /\
       forall r, i < length (vals r) ->
         exists r', f r = Some r' /\ ts r' = ts r /\ without i (vals r) (vals r')).
Proof.
  set (F := fun (k : sink) (r : row) => match sk_write k [] r with Ok [r'] => Some r' | _ => None end).
  repeat split; intros.
  - destruct (proj2 (proj2 (C16_equal_filter name v h)) i H) as (k & E & _ & X & _).
    exists k, (F k). split; [exact E|]. split.
    + intros past r rows. unfold F. unfold row_filter_equal in E. destruct (find_column _ _ _); [|discriminate].
      injection E as <-. cbn. unfold equal_write. destruct (unwrap _); cbn; try discriminate.
      destruct (fv_eq _ _) as [[|]| | | |]; cbn; try discriminate; intros [= <-]; reflexivity.
    + intros r x Hx Hc. unfold F. destruct (X [] r x Hx Hc) as [A B].
      split; intro Y; [rewrite (A Y)|rewrite (B Y)]; reflexivity.
  - destruct (proj2 (proj2 (C17_greater_filter name v h)) i H) as (k & E & _ & X & _).
    exists k, (F k). split; [exact E|]. split.
    + intros past r rows. unfold F. unfold row_filter_greater in E. destruct (find_column _ _ _); [|discriminate].
      injection E as <-. cbn. unfold greater_write. destruct (unwrap _); cbn; try discriminate.
      destruct (fv_partial_cmp _ _) as [[[| |]|]| | | |]; cbn; try discriminate; intros [= <-]; reflexivity.
    + intros r x Hx Hc. unfold F. destruct (X [] r x Hx Hc) as [A B].
      split; intro Y; [rewrite (A Y)|rewrite (B Y)]; reflexivity.
  - destruct (proj2 (proj2 (C18_delete_column name h)) i H H0) as (h' & k & E & W1 & W2 & _ & X & _).
    exists h', k, (F k). split; [exact E|]. split; [|split; [exact W1|split; [exact W2|]]].
    + intros past r rows. unfold F. unfold column_filter_delete in E. destruct (find_column _ _ _); [|discriminate].
      destruct (list_remove _ (h_names h)); try discriminate. cbn in E.
      destruct (list_remove _ (h_types h)); try discriminate. injection E as <- <-. cbn.
      unfold delete_write. destruct (list_remove _ (vals r)); cbn; try discriminate. intros [= <-]. reflexivity.
    + intros r Hr. destruct (X [] r Hr) as (r' & A & B). exists r'. unfold F. rewrite A. auto.
Qed.
Print Assumptions C99_filter_steps.

(** The graph of examples/filter_and_merge.rs: chain 0 keeps rows with an_int > 10, chain 1 rows
    with an_int = 3.  The rows of the first input go through the filter of chain 1 (see C05). *)
Definition h1 : header := {| h_names := [b "an_int"]; h_types := [TInt] |}.
Definition ri (t : N) (z : Z) : row := {| ts := t; vals := [VInt z] |}.
Definition gr := row_filter_greater (b "an_int") (VInt 10).
Definition eq3 := row_filter_equal (b "an_int") (VInt 3).
Definition last_sink : header_sink := fun h => Ok (h, pass_sink).
Definition two : list source := [map Ok [ri 1 3; ri 2 30; ri 5 3]; map Ok [ri 1 3; ri 2 31; ri 7 32]].
Example ex_c99 : exists s, run_driver 5 two (fan_in [[gr]; [eq3]] [] last_sink) range_all [h1; h1] = (s, Ok tt) /\
  events_at (r_log s) 2 1 =
    [EvRow (ri 1 3); EvRow (ri 2 31); EvRow (ri 5 3); EvFlush; EvRow (ri 7 32); EvFlush].
Proof. eexists. split; [reflexivity|]. vm_compute. reflexivity. Qed.
Example ex_c99_hyps : exists k0 k1 a0 a1 h' k,
  Forall2 (fun p q => steps (fst p) (snd p) h1 (fst q) (snd q)) (combine [h1; h1] [[gr]; [eq3]])
    (combine [[k0]; [k1]] [[a0]; [a1]]) /\ last_sink h1 = Ok (h', k).
Proof.
  destruct C99_filter_steps as (E & G & _).
  assert (N : first_named (h_names h1) (b "an_int") 0).
  { destruct (proj1 (C16_equal_filter (b "an_int") (VInt 3) h1)) as [[i H]|H].
    - assert (i = 0) as ->; [|exact H]. destruct H as [(x & Hx & _) _]. destruct i as [|[|i]]; [reflexivity|discriminate|discriminate].
    - exfalso. apply (H (b "an_int")); [now left|]. unfold ci_eq. clear. induction (b "an_int"); constructor; auto. now left. }
  destruct (E (b "an_int") (VInt 3) h1 0 N) as (k1 & f1 & E1 & A1 & _).
  destruct (G (b "an_int") (VInt 10) h1 0 N) as (k0 & f0 & E0 & A0 & _).
  exists k0, k1, f0, f1, h1, pass_sink. split; [|reflexivity].
  constructor; [|constructor; [|constructor]]; cbn [fst snd]; econstructor; eauto; constructor.
Qed.

(** The graph of examples/split.rs, with a filter before and another behind the split. *)
Example ex_c100 : exists s,
  run_driver 5 [map Ok [ri 1 3; ri 2 30; ri 5 9; ri 8 31]]
    (fan_out [row_filter_greater (b "an_int") (VInt 5)] [([], last_sink); ([gr], last_sink)])
    range_all [h1] = (s, Ok tt) /\
  events_at (r_log s) 1 0 = [EvRow (ri 2 30); EvRow (ri 5 9); EvRow (ri 8 31); EvFlush] /\
  events_at (r_log s) 2 1 = [EvRow (ri 2 30); EvRow (ri 8 31); EvFlush].
Proof. eexists. split; [reflexivity|]. split; vm_compute; reflexivity. Qed.

(** The graph the command line builds (C14). *)
From Verif Require Export HeaderCount DriveMore.

Lemma repeat_snoc {A} (x : A) n : repeat x n ++ [x] = repeat x (S n).
Proof. induction n; cbn; [reflexivity|]. now rewrite IHn. Qed.

Lemma list_set_at {A} (l1 : list A) x y l2 i :
  i = length l1 -> list_set i y (l1 ++ x :: l2) = Ok (l1 ++ y :: l2).
Proof. intros ->. apply list_set_mid. Qed.
Lemma nth_at {A} (l1 : list A) x l2 i : i = length l1 -> nth_error (l1 ++ x :: l2) i = Some x.
Proof. intros ->. apply nth_error_mid. Qed.

Section Cli.
  Variable n : nat.
  Variable out : header_sink.

  (** Header graph and data graph after [i] headers; [i + j = n]. *)
  Definition hg_at (i j : nat) (last : hchain) : hgraph :=
    repeat [] i ++ repeat [HGoto n] j ++ [last].
  Definition dg_at (i j : nat) (last : dchain) : dgraph :=
    repeat [DMerge n] i ++ repeat [] j ++ [last].

  Lemma cli_step f i j st m h :
    i + S j = n ->
    process_header_re (S f) (hg_at i (S j) [HMerge st (S m); HSink out], dg_at i (S j) []) i h =
    let* st' := check_header st h in
    match m with
    | S _ => Ok (hg_at (S i) j [HMerge st' m; HSink out], dg_at (S i) j [])
    | O => let* h0 := unwrap st' in
           match_remove_chain f (hg_at (S i) j [HMerge None 0; HSink out], dg_at (S i) j []) n h0
    end.
  Proof.
    intro Hn.
    assert (E1 : forall last, hg_at i (S j) last = repeat [] i ++ [HGoto n] :: (repeat [HGoto n] j ++ [last]))
      by reflexivity.
    assert (E2 : forall last, hg_at (S i) j last = repeat [] i ++ [] :: (repeat [HGoto n] j ++ [last])).
    { intro last. unfold hg_at. rewrite <- repeat_snoc, <- app_assoc. reflexivity. }
    assert (E3 : forall last, hg_at (S i) j last = (repeat [] (S i) ++ repeat [HGoto n] j) ++ last :: []).
    { intro last. unfold hg_at. now rewrite app_assoc. }
    assert (E4 : dg_at i (S j) [] = repeat [DMerge n] i ++ [] :: (repeat [] j ++ [[]])) by reflexivity.
    assert (E5 : dg_at (S i) j [] = repeat [DMerge n] i ++ [DMerge n] :: (repeat [] j ++ [[]])).
    { unfold dg_at. rewrite <- repeat_snoc, <- app_assoc. reflexivity. }
    assert (L1 : forall A (x : A), i = length (repeat x i)) by (intros; now rewrite repeat_length).
    assert (L2 : n = length (repeat (@nil hnode) (S i) ++ repeat [HGoto n] j)).
    { rewrite app_length, !repeat_length. lia. }
    unfold process_header_re. cbn [fst]. rewrite E1, nth_at by apply L1.
    cbn [match_remove_chain fst snd]. unfold swap_remove. rewrite nth_at by apply L1.
    rewrite list_set_at by apply L1. cbn [bind walk_header fst snd]. rewrite <- E2.
    unfold add_node. rewrite E4, nth_at by apply L1. cbn [app]. rewrite list_set_at by apply L1.
    cbn [bind]. rewrite <- E5. unfold check_merge_header. rewrite E3, nth_at by exact L2.
    destruct (check_header st h) as [st'|e| | |]; cbn [bind]; try reflexivity.
    destruct m as [|m].
    - destruct (unwrap st') as [h0|e| | |]; cbn [bind]; try reflexivity.
      rewrite list_set_at by exact L2. cbn [bind].
      rewrite <- E3. now destruct (match_remove_chain f _ n h0).
    - rewrite list_set_at by exact L2. rewrite <- E3. reflexivity.
  Qed.

  Lemma cli_last f h0 :
    (let* s := match_remove_chain (S f) (hg_at n 0 [HMerge None 0; HSink out], dg_at n 0 []) n h0 in Ok (snd s)) =
    let* (_, k) := out h0 in Ok (dg_at n 0 [DSink pass_sink; DSink k]).
  Proof.
    assert (L1 : forall A (x : A), n = length (repeat x n)) by (intros; now rewrite repeat_length).
    unfold hg_at, dg_at. cbn [repeat app match_remove_chain fst snd].
    unfold swap_remove. rewrite nth_at by apply L1. rewrite list_set_at by apply L1.
    cbn [bind walk_header merge_data_sink fst snd]. unfold add_node.
    rewrite nth_at by apply L1. rewrite list_set_at by apply L1. cbn [bind app fst snd].
    destruct (out h0) as [[h' k]|e| | |]; cbn [bind]; try reflexivity.
    rewrite nth_at by apply L1. rewrite list_set_at by apply L1. reflexivity.
  Qed.

  (* all further headers equal to the first *)
  Lemma cli_rest f h t i :
    1 <= length t -> i + length t = n ->
    (let* s := process_headers (S (S f)) (hg_at i (length t) [HMerge (Some h) (length t); HSink out],
                                   dg_at i (length t) []) i t in Ok (snd s)) =
    (if forallb (fun x => header_eqb x h) t
     then let* (_, k) := out h in Ok (dg_at n 0 [DSink pass_sink; DSink k])
     else Err (ECustom "MuxHeaderSink -- wrong header")).
  Proof.
    revert i; induction t as [|x t IH]; intros i L E; [cbn in L; lia|].
    cbn [length process_headers] in *. rewrite cli_step by lia.
    unfold check_header at 1. cbn [forallb].
    destruct (header_eqb x h); cbn [bind andb]; [|reflexivity].
    destruct t as [|y t].
    - cbn [length unwrap bind process_headers forallb]. replace (S i) with n by (cbn in E; lia).
      rewrite <- (cli_last f h). destruct (match_remove_chain (S f) _ n h); reflexivity.
    - cbn [length] in *. cbn [bind]. apply IH; lia.
  Qed.

  Lemma cli_header h t :
    2 <= n -> length (h :: t) = n ->
    process_header (repeat [HGoto n] n ++ [[HMerge None n; HSink out]]) (h :: t) =
    (if forallb (fun x => header_eqb x h) t
     then let* (_, k) := out h in Ok (repeat [DMerge n] n ++ [[DSink pass_sink; DSink k]])
     else Err (ECustom "MuxHeaderSink -- wrong header")).
  Proof.
    intros Hn L. unfold process_header, hfuel. cbn [length] in L. rewrite app_length, repeat_length.
    set (f := length (concat (repeat [HGoto n] n ++ [[HMerge None n; HSink out]]))).
    replace (repeat [] (n + length [[HMerge None n; HSink out]])) with (dg_at 0 n []).
    2:{ unfold dg_at. cbn [repeat app]. rewrite repeat_snoc. cbn [length]. f_equal. lia. }
    change (repeat [HGoto n] n ++ [[HMerge None n; HSink out]]) with (hg_at 0 n [HMerge None n; HSink out]).
    assert (Em : exists m, n = S m /\ m = length t) by (exists (length t); lia).
    destruct Em as (m & En & Em).
    cbn [process_headers]. change (2 + f) with (S (S f)).
    pose proof (cli_step (S f) 0 m None m h ltac:(lia)) as St. rewrite <- En in St.
    change (2 + f) with (S (S f)) in *. rewrite St.
    cbn [check_header bind]. destruct m as [|m]; [lia|]. cbn [bind].
    rewrite Em. apply cli_rest; lia.
  Qed.
End Cli.

(** ** The data run *)
Lemma each_stays {A} (f : log -> A -> log * res unit) xs l l' :
  (forall l x, fst (f l x) = l) -> each f xs l = (l', Ok tt) -> l' = l.
Proof.
  intro Hf. revert l; induction xs as [|x xs IH]; intros l H; cbn [each] in H; [congruence|].
  pose proof (Hf l x) as E. destruct (f l x) as [l1 [u|e| | |]]; try discriminate.
  cbn in E. subst l1. auto.
Qed.
Lemma process_row_past F g l c chain m r :
  nth_error g c = Some chain -> length chain <= m -> fst (process_row F g l c m r) = l.
Proof.
  intros Hc Hm. destruct F as [|F]; [reflexivity|]. cbn [process_row]. rewrite Hc, skipn_all2 by exact Hm.
  reflexivity.
Qed.

Section CliData.
  Variable n : nat.
  Variable k : sink.
  Definition cli_data : dgraph := repeat [DMerge n] n ++ [[DSink pass_sink; DSink k]].

  Lemma cli_src c : c < n -> nth_error cli_data c = Some [DMerge n].
  Proof.
    intro H. unfold cli_data. rewrite nth_error_app1 by now rewrite repeat_length.
    rewrite nth_error_repeat'. destruct (Nat.ltb_spec c n); [reflexivity|lia].
  Qed.
  Lemma cli_dst : nth_error cli_data n = Some [DSink pass_sink; DSink k].
  Proof. apply nth_at. now rewrite repeat_length. Qed.

  Definition chain_of (e : devent) : nat := match e with DRow c _ => c | DFlush c => c end.

  Lemma cli_apply F lg e lg' :
    chain_of e < n -> apply_ev F cli_data lg e = (lg', Ok tt) ->
    events_at lg' n 1 = events_at lg n 1 ++ [ev_of e].
  Proof.
    intros Hc H.
    assert (Hx : forall c m x l, c <> n \/ m <> 1 -> events_at (l ++ [V c m x]) n 1 = events_at l n 1).
    { intros c m x l Hne. rewrite events_at_app, events_at_other by lia. now rewrite app_nil_r. }
    destruct e as [c r|c]; cbn [apply_ev chain_of ev_of] in *.
    - destruct F as [|[|F]]; [discriminate| |].
      + cbn [process_row] in H. rewrite (cli_src c Hc) in H. discriminate.
      + cbn [process_row] in H. rewrite (cli_src c Hc) in H. cbn [skipn row_walk] in H.
        change (process_row (S F) cli_data) with
          (fun lg c n r => process_row (S F) cli_data lg c n r) in H. cbn [process_row] in H.
        rewrite cli_dst in H. cbn [skipn row_walk pass_sink sk_write removelast last each] in H.
        destruct (sk_write k _ r) as [rows|e| | |]; try discriminate.
        assert (Nil : forall xs l l' , each (fun l x => process_row F cli_data l n 2 x) xs l = (l', Ok tt) -> l' = l).
        { intros xs l l'. apply each_stays. intros. eapply process_row_past; [exact cli_dst|cbn; lia]. }
        destruct rows as [|r0 rows].
        * injection H as <-. rewrite events_at_app, events_at_one. f_equal.
          rewrite Hx by lia. apply Hx. lia.
        * destruct (each _ _ _) as [lg2 [[]|e| | |]] eqn:Ee; try discriminate.
          apply Nil in Ee. cbn [row_walk] in H. injection H as <-. subst lg2.
          rewrite events_at_app, events_at_one. f_equal. rewrite Hx by lia. apply Hx. lia.
    - destruct F as [|[|F]]; [discriminate| |].
      + cbn [flush] in H. rewrite (cli_src c Hc) in H. discriminate.
      + cbn [flush] in H. rewrite (cli_src c Hc) in H. cbn [flush_walk] in H.
        rewrite cli_dst in H. cbn [flush_walk pass_sink sk_flush default_flush] in H.
        destruct (sk_flush k _); try discriminate. injection H as <-.
        rewrite events_at_app, events_at_one. f_equal. rewrite Hx by lia. apply Hx. lia.
  Qed.

  Lemma cli_each F ds lg lg' :
    (forall e, In e ds -> chain_of e < n) -> each (apply_ev F cli_data) ds lg = (lg', Ok tt) ->
    events_at lg' n 1 = events_at lg n 1 ++ map ev_of ds.
  Proof.
    revert lg; induction ds as [|e ds IH]; intros lg Hc H; cbn [each] in H.
    - injection H as <-. cbn. now rewrite app_nil_r.
    - destruct (apply_ev F cli_data lg e) as [lg1 [[]|x| | |]] eqn:E; try discriminate.
      apply cli_apply in E; [|apply Hc; now left].
      apply IH in H; [|intros; apply Hc; now right]. cbn [map]. rewrite H, E, <- app_assoc. reflexivity.
  Qed.

  (* any call is accepted if the output sink accepts every call *)
  Lemma cli_accepts F lg e :
    3 <= F -> chain_of e < n ->
    match e with
    | DRow _ r => forall past, exists rows, sk_write k past r = Ok rows
    | DFlush _ => forall past, sk_flush k past = Ok tt
    end ->
    exists lg', apply_ev F cli_data lg e = (lg', Ok tt).
  Proof.
    intros HF Hc Hw. destruct F as [|[|[|F]]]; try lia.
    destruct e as [c r|c]; cbn [apply_ev chain_of] in *.
    - cbn [process_row]. rewrite (cli_src c Hc). cbn [skipn row_walk].
      change (process_row (S (S F)) cli_data) with
          (fun lg c n r => process_row (S (S F)) cli_data lg c n r). cbn [process_row].
      rewrite cli_dst. cbn [skipn row_walk pass_sink sk_write removelast last each].
      destruct (Hw (events_at ((lg ++ [V c 0 (EvRow r)]) ++ [V n 0 (EvRow r)]) n 1)) as (rows & ->).
      destruct rows as [|r0 rows]; [eauto|].
      match goal with |- context [each ?f (removelast (r0 :: rows)) ?l] =>
        replace (each f (removelast (r0 :: rows)) l) with (l, Ok tt) end.
      + cbn [row_walk]. eauto.
      + symmetry. generalize (removelast (r0 :: rows)). intros xs.
        generalize (((lg ++ [V c 0 (EvRow r)]) ++ [V n 0 (EvRow r)]) ++ [V n 1 (EvRow r)]).
        rewrite cli_dst. cbn [row_walk].
        induction xs as [|x xs IH]; intro l; cbn [each]; [reflexivity|]. apply IH.
    - cbn [flush]. rewrite (cli_src c Hc). cbn [flush_walk].
      rewrite cli_dst. cbn [flush_walk pass_sink sk_flush default_flush]. rewrite Hw. eauto.
  Qed.
End CliData.

(** Single input. *)
Section Single.
  Variable k : sink.
  Lemma single_apply F lg e lg' :
    chain_of e < 1 -> apply_ev F [[DSink k]] lg e = (lg', Ok tt) ->
    events_at lg' 0 0 = events_at lg 0 0 ++ [ev_of e].
  Proof.
    intros Hc H. destruct e as [c r|c]; cbn [apply_ev chain_of ev_of] in *; (destruct c; [|lia]).
    - destruct F as [|F]; [discriminate|]. cbn [process_row nth_error skipn row_walk] in H.
      destruct (sk_write k _ r) as [rows|e| | |]; try discriminate.
      assert (Nil : forall xs l l' , each (fun l x => process_row F [[DSink k]] l 0 1 x) xs l = (l', Ok tt) -> l' = l).
      { intros xs l l'. apply each_stays. intros. eapply process_row_past; [reflexivity|cbn; lia]. }
      destruct rows as [|r0 rows].
      + injection H as <-. now rewrite events_at_app, events_at_one.
      + destruct (each _ _ _) as [lg2 [[]|e| | |]] eqn:Ee; try discriminate.
        apply Nil in Ee. cbn [row_walk] in H. injection H as <-. subst lg2.
        now rewrite events_at_app, events_at_one.
    - destruct F as [|F]; [discriminate|]. cbn [flush nth_error flush_walk] in H.
      destruct (sk_flush k _); try discriminate. injection H as <-.
      now rewrite events_at_app, events_at_one.
  Qed.
  Lemma single_each F ds lg lg' :
    (forall e, In e ds -> chain_of e < 1) -> each (apply_ev F [[DSink k]]) ds lg = (lg', Ok tt) ->
    events_at lg' 0 0 = events_at lg 0 0 ++ map ev_of ds.
  Proof.
    revert lg; induction ds as [|e ds IH]; intros lg Hc H; cbn [each] in H.
    - injection H as <-. cbn. now rewrite app_nil_r.
    - destruct (apply_ev F [[DSink k]] lg e) as [lg1 [[]|x| | |]] eqn:E; try discriminate.
      apply single_apply in E; [|apply Hc; now left].
      apply IH in H; [|intros; apply Hc; now right]. cbn [map]. rewrite H, E, <- app_assoc. reflexivity.
  Qed.
  Lemma single_accepts F lg e :
    2 <= F -> chain_of e < 1 ->
    match e with
    | DRow _ r => forall past, exists rows, sk_write k past r = Ok rows
    | DFlush _ => forall past, sk_flush k past = Ok tt
    end ->
    exists lg', apply_ev F [[DSink k]] lg e = (lg', Ok tt).
  Proof.
    intros HF Hc Hw. destruct F as [|[|F]]; try lia.
    destruct e as [c r|c]; cbn [apply_ev chain_of] in *; (destruct c; [|lia]).
    - cbn [process_row nth_error skipn row_walk].
      destruct (Hw (events_at lg 0 0)) as (rows & ->). destruct rows as [|r0 rows]; [eauto|].
      assert (Nil : forall xs l, each (fun l x => row_walk (process_row F [[DSink k]]) 0 [] 1 x l) xs l = (l, Ok tt)).
      { induction xs as [|x xs IH]; intro l; cbn [each row_walk]; auto. }
      match goal with |- context [each ?f (removelast (r0 :: rows)) ?l] =>
        replace (each f (removelast (r0 :: rows)) l) with (l, @Ok unit tt) end; [cbn [row_walk]; eauto|].
      symmetry. apply Nil.
    - cbn [flush nth_error flush_walk]. rewrite Hw. eauto.
  Qed.
End Single.

(** ** chop *)
Lemma cli_new n out h t :
  length (h :: t) = n ->
  (let* hg := cli_graph n out in driver_new n hg (h :: t)) =
  (if forallb (fun x => header_eqb x h) t
   then let* (_, k) := out h in
        Ok (if 1 <? n then cli_data n k else [[DSink k]])
   else Err (ECustom "MuxHeaderSink -- wrong header")).
Proof.
  intro L. unfold cli_graph. destruct (Nat.ltb_spec 1 n) as [H|H].
  - destruct n as [|m] eqn:En; [lia|]. cbn [merge_join bind]. unfold driver_new. rewrite <- En in *.
    rewrite app_length, repeat_length. cbn [length].
    destruct (Nat.ltb_spec (n + 1) n); [lia|]. rewrite cli_header by (auto; lia). reflexivity.
  - destruct t as [|x t]; [|cbn in L; lia]. cbn in L. subst n.
    cbn [bind forallb]. change (driver_new 1 [[HSink out]] [h]) with (process_header [[HSink out]] [h]).
    unfold process_header, hfuel. cbn. destruct (out h) as [[h' k]|e| | |]; reflexivity.
Qed.

Lemma map_ev_rows ds : ev_rows (map ev_of ds) = rows_handed ds.
Proof. induction ds as [|[c r|c] ds IH]; cbn; congruence. Qed.


Lemma chop_headers_eq h (inputs : list (header * source)) i0 t :
  inputs = i0 :: t -> (forall i, In i inputs -> fst i = h) ->
  fst i0 = h /\ forallb (fun x => header_eqb x h) (map fst t) = true.
Proof.
  intros -> H. split; [apply H; now left|]. apply forallb_forall. intros x Hx.
  apply in_map_iff in Hx as (i & <- & Hi). apply header_eqb_eq, H. now right.
Qed.

Lemma chop_drive F inputs out rng h h' k :
  inputs <> [] -> (forall i, In i inputs -> fst i = h) -> out h = Ok (h', k) ->
  chop F inputs out rng =
  drive F (if 1 <? length inputs then cli_data (length inputs) k else [[DSink k]]) (map snd inputs) rng.
Proof.
  intros Hne Hh Ho. destruct inputs as [|i0 t] eqn:Ei; [congruence|]. clear Hne.
  destruct (chop_headers_eq h _ _ _ eq_refl Hh) as [E0 Ef].
  pose proof (cli_new (length (i0 :: t)) out (fst i0) (map fst t)) as N.
  rewrite E0, Ef, Ho in N. cbn [bind] in N.
  unfold chop. destruct (cli_graph _ out) as [hg|e| | |]; cbn [bind] in N;
    try (specialize (N ltac:(cbn [length]; now rewrite map_length)); discriminate).
  unfold run_driver. cbn [map] in *. rewrite E0 in *. cbn [length] in *.
  rewrite map_length in *. rewrite N; [reflexivity|reflexivity].
Qed.

Lemma chop_ok F inputs out rng h h' k s :
  inputs <> [] -> (forall i, In i inputs -> fst i = h) -> out h = Ok (h', k) ->
  chop F inputs out rng = (s, Ok tt) ->
  let calls := events_at (r_log s) (out_chain (length inputs)) (out_node (length inputs)) in
  calls = map ev_of (r_devs s) /\
  Permutation (ev_rows calls) (concat (map (selected rng) (map snd inputs))) /\
  ((forall i, In i inputs -> time_ordered (rows_before_failure (snd i))) -> time_ordered (ev_rows calls)) /\
  exists pre, calls = pre ++ [EvFlush].
Proof.
  intros Hne Hh Ho H. rewrite (chop_drive _ _ _ _ _ _ _ Hne Hh Ho) in H.
  pose proof (drive_chains _ _ _ _ _ _ H) as Hc. rewrite map_length in Hc.
  destruct (drive_exec _ _ _ _ _ _ H) as (o1 & Ex & O). assert (o1 = Ok tt) as -> by tauto.
  assert (Ecalls : events_at (r_log s) (out_chain (length inputs)) (out_node (length inputs)) = map ev_of (r_devs s)).
  { assert (Hc' : forall e, In e (r_devs s) -> chain_of e < length inputs).
    { intros e He. specialize (Hc e He). destruct e; exact Hc. }
    revert Ex. unfold out_chain, out_node. destruct (Nat.ltb_spec 1 (length inputs)) as [L|L]; intro Ex.
    - apply cli_each in Ex; auto.
    - apply single_each in Ex; auto. intros e He. specialize (Hc' e He). lia. }
  intro calls. subst calls. rewrite Ecalls, map_ev_rows.
  split; [reflexivity|]. split; [now apply drive_perm in H|]. split.
  - intro Hs. eapply drive_sorted; eauto. intros src Hin.
    apply in_map_iff in Hin as (i & <- & Hi). auto.
  - destruct (drive_flush_devs _ _ _ _ _ H) as [A B0].
    destruct (r_devs s) as [|e0 ds0] eqn:Ed using rev_ind.
    + destruct inputs; [congruence|]. rewrite map_length in A. cbn [length] in A. destruct (A 0). lia.
    + rewrite map_app. destruct e0 as [c r|c]; [|eauto].
      exfalso. exact (B0 ds0 c r [] eq_refl).
Qed.

Lemma chop_order F inputs out rng h h' k s :
  inputs <> [] -> (forall i, In i inputs -> fst i = h) -> out h = Ok (h', k) ->
  chop F inputs out rng = (s, Ok tt) ->
  let rows := ev_rows (events_at (r_log s) (out_chain (length inputs)) (out_node (length inputs))) in
  ((forall i, In i inputs -> time_ordered (rows_before_failure (snd i))) ->
   forall t, filter (fun r => (ts r =? t)%N) rows =
             concat (map (fun i => filter (fun r => (ts r =? t)%N) (selected rng (snd i))) (rev inputs))) /\
  (forall i, inputs = [i] -> rows = selected rng (snd i)).
Proof.
  intros Hne Hh Ho H rows. destruct (chop_ok _ _ _ _ _ _ _ _ Hne Hh Ho H) as (E & _).
  unfold rows. rewrite E, map_ev_rows. rewrite (chop_drive _ _ _ _ _ _ _ Hne Hh Ho) in H. split.
  - intros Hs t. rewrite (drive_ties _ _ _ _ _ H).
    + rewrite <- map_rev, map_map. reflexivity.
    + intros src Hin. apply in_map_iff in Hin as (i & <- & Hi). auto.
  - intros i ->. destruct (drive_rows _ _ _ _ _ _ H 0 (snd i) eq_refl) as [_ R]. rewrite <- (R eq_refl).
    pose proof (drive_chains _ _ _ _ _ _ H) as C. cbn [map length] in C |- *. clear - C.
    induction (r_devs s) as [|[c r|c] ds IH]; cbn; auto.
    + assert (c < 1) by (apply (C (DRow c r)); now left). destruct (Nat.eqb_spec c 0); [|lia].
      f_equal. apply IH. intros; apply C; now right.
    + apply IH. intros; apply C; now right.
Qed.

Lemma chop_success F inputs out rng h h' k :
  3 <= F -> inputs <> [] -> (forall i, In i inputs -> fst i = h) -> out h = Ok (h', k) ->
  (forall i past r, In i inputs -> In r (selected rng (snd i)) -> exists rows, sk_write k past r = Ok rows) ->
  (forall past, sk_flush k past = Ok tt) ->
  (forall i, In i inputs -> readable rng (snd i) /\ selected rng (snd i) <> []) ->
  snd (chop F inputs out rng) = Ok tt.
Proof.
  intros HF Hne Hh Ho Hw Hf Hs. rewrite (chop_drive _ _ _ _ _ _ _ Hne Hh Ho).
  destruct (drive F _ _ rng) as [s o] eqn:E. cbn [snd]. eapply drive_success; [exact E| |].
  - intros src Hin. apply in_map_iff in Hin as (i & <- & Hi). auto.
  - rewrite map_length. intros lg e He.
    assert (Hc : chain_of e < length inputs) by (destruct e; [exact (proj1 He)|exact He]).
    assert (Ha : match e with
                 | DRow _ r => forall past, exists rows, sk_write k past r = Ok rows
                 | DFlush _ => forall past, sk_flush k past = Ok tt
                 end).
    { destruct e as [c r|c]; [|exact Hf]. destruct He as [_ (src & Hin & Hr)].
      apply in_map_iff in Hin as (i & <- & Hi). intro past. eauto. }
    destruct (Nat.ltb_spec 1 (length inputs)).
    + apply cli_accepts; auto.
    + apply single_accepts; auto; lia.
Qed.

Lemma chop_mismatch F inputs out rng i j :
  In i inputs -> In j inputs -> fst i <> fst j ->
  chop F inputs out rng = (run0, Err (ECustom "MuxHeaderSink -- wrong header")).
Proof.
  intros Hi Hj Hd. destruct inputs as [|i0 t] eqn:Ei; [destruct Hi|].
  pose proof (cli_new (length (i0 :: t)) out (fst i0) (map fst t)) as N.
  destruct (forallb (fun x => header_eqb x (fst i0)) (map fst t)) eqn:Ef.
  - exfalso. apply Hd. rewrite forallb_forall in Ef.
    assert (X : forall q, In q (i0 :: t) -> fst q = fst i0).
    { intros q [<-|Hq]; [reflexivity|]. apply header_eqb_eq, Ef. now apply in_map. }
    rewrite (X i Hi), (X j Hj). reflexivity.
  - specialize (N ltac:(cbn [length]; now rewrite map_length)).
    unfold chop. destruct (cli_graph _ out) as [hg|e| | |] eqn:Eg; cbn [bind] in N; try discriminate.
    + unfold run_driver. cbn [map length] in *. rewrite map_length in *. rewrite N. reflexivity.
    + unfold cli_graph in Eg. destruct (1 <? _) eqn:El; [|discriminate].
      destruct (length (i0 :: t)); [discriminate|]. discriminate.
Qed.

(** C108 for the program: what its output sink has been given while its inputs are still coming. *)
From Verif Require Import CliProofs T_Stream DriveTop DriveMore.
From Verif Require Export StreamSpec.

Lemma between {T} rng (p l : list row) :
  time_ordered p -> prefix (earlier rng T p) l -> prefix l (filter (in_range rng) p) ->
  filter (fun r => (ts r <? T)%N) l = earlier rng T p.
Proof.
  intros Hs [x Hx] [y Hy].
  assert (E : earlier rng T p = filter (ltT T) (filter (in_range rng) p)).
  { unfold earlier. rewrite filter_filter. apply filter_ext. intro r. apply Bool.andb_comm. }
  change (filter (ltT T) l = earlier rng T p). rewrite E, Hy, filter_app.
  assert (Hl : filter (ltT T) (earlier rng T p) = earlier rng T p).
  { unfold earlier. rewrite filter_filter. apply filter_ext. intro r. unfold ltT.
    destruct (ts r <? T)%N; cbn; [reflexivity|]. symmetry. apply Bool.andb_false_r. }
  assert (Hlen : length (filter (ltT T) l) + length (filter (ltT T) y) = length (earlier rng T p)).
  { rewrite E, Hy, filter_app, app_length. reflexivity. }
  rewrite Hx in Hlen. rewrite filter_app, app_length, Hl in Hlen.
  assert (filter (ltT T) y = []) as ->; [|now rewrite app_nil_r].
  destruct (filter (ltT T) y); [reflexivity|cbn in Hlen; lia].
Qed.

Lemma concat_perm_map {A B} (f g : A -> list B) l : (forall x, In x l -> f x = g x) -> concat (map f l) = concat (map g l).
Proof. intro H. f_equal. now apply map_ext_in. Qed.

Lemma filter_concat {A} (f : A -> bool) ls : filter f (concat ls) = concat (map (filter f) ls).
Proof. induction ls as [|l ls IH]; cbn; [reflexivity|]. now rewrite filter_app, IH. Qed.

Lemma perm_filter {A} (f : A -> bool) x y : Permutation x y -> Permutation (filter f x) (filter f y).
Proof.
  induction 1 as [|a x y _ IH|a c x|x y z _ IH1 _ IH2]; cbn; auto.
  - destruct (f a); auto.
  - destruct (f a), (f c); auto. apply perm_swap.
  - eapply perm_trans; eauto.
Qed.
Lemma rows_handed_app x y : rows_handed (x ++ y) = rows_handed x ++ rows_handed y.
Proof. induction x as [|[c r|c] x IH]; cbn; congruence. Qed.

(** [inputs] as far as they have come: the common header and the rows [ps] so far.  If every one of
    them has a row of the range at [T] or later, the output sink has been given all rows before
    [T], in time order, and nothing that a continuation could still change. *)
Theorem C108_chop : forall F ps out rng h h' k T,
  3 <= F -> ps <> [] -> out h = Ok (h', k) ->
  (forall past r, exists rows, sk_write k past r = Ok rows) -> (forall past, sk_flush k past = Ok tt) ->
  Forall time_ordered ps ->
  Forall (fun p => exists r, In r p /\ in_range rng r = true /\ (T <= ts r)%N) ps ->
  exists calls,
    time_ordered (ev_rows calls) /\
    Permutation (filter (fun r => (ts r <? T)%N) (ev_rows calls)) (concat (map (earlier rng T) ps)) /\
    forall rests, length rests = length ps ->
      let s := fst (chop F (map (pair h) (going_on ps rests)) out rng) in
      prefix calls (events_at (r_log s) (out_chain (length ps)) (out_node (length ps))).
Proof.
  intros F ps out rng h h' k T HF Hne Ho Hw Hf Hs HT.
  set (g := if 1 <? length ps then cli_data (length ps) k else [[DSink k]]).
  assert (Lg : forall rests, length rests = length ps -> length (going_on ps rests) = length ps).
  { intros rests L. unfold going_on. rewrite map_length, combine_length. lia. }
  assert (Dr : forall rests, length rests = length ps ->
    chop F (map (pair h) (going_on ps rests)) out rng = drive F g (going_on ps rests) rng).
  { intros rests L. rewrite (chop_drive F _ out rng h h' k).
    - rewrite map_length, (Lg rests L), map_map. cbn [snd]. rewrite map_id. reflexivity.
    - intro C. apply (f_equal (@length _)) in C. rewrite map_length, (Lg rests L) in C. destruct ps; [congruence|discriminate].
    - intros i Hi. apply in_map_iff in Hi as (x & <- & _). reflexivity.
    - exact Ho. }
  destruct (C108_streaming F g ps rng T Hs HT) as [(s & o & No & Same)|(ds & lg & Ex & Rows & Ch & Srt & Pre)].
  - exfalso.
    (* with nothing to follow, the run succeeds *)
    set (none := map (fun _ : list row => @nil (res row)) ps).
    assert (Ln : length none = length ps) by (unfold none; now rewrite map_length).
    specialize (Same none Ln). rewrite <- (Dr none Ln) in Same.
    assert (X : snd (chop F (map (pair h) (going_on ps none)) out rng) = Ok tt).
    { assert (Src : forall i, In i (map (pair h) (going_on ps none)) -> exists p, In p ps /\ snd i = map Ok p).
      { intros i Hi. apply in_map_iff in Hi as (x & <- & Hx). unfold going_on in Hx.
        apply in_map_iff in Hx as ([p c] & <- & Hpc). exists p.
        pose proof (in_combine_r _ _ _ _ Hpc) as Hc. unfold none in Hc. apply in_map_iff in Hc as (z & <- & _).
        apply in_combine_l in Hpc. split; [exact Hpc|]. cbn [fst snd]. apply app_nil_r. }
      apply (chop_success F _ out rng h h' k); auto.
      - intro C. apply (f_equal (@length _)) in C. rewrite map_length, (Lg none Ln) in C. destruct ps; [congruence|discriminate].
      - intros i Hi. apply in_map_iff in Hi as (x & <- & _). reflexivity.
      - intros i Hi. destruct (Src i Hi) as (p & Hp & ->).
        assert (Eq : selected rng (map Ok p) = filter (in_range rng) p).
        { rewrite Forall_forall in Hs.
          pose proof (selected_prefix rng p (Err (ECustom "")) [] (Hs p Hp)) as Q.
          assert (Z : selected rng (map Ok p ++ [Err (ECustom "")]) = selected rng (map Ok p)).
          { unfold selected. replace (rows_before_failure (map Ok p ++ [Err (ECustom "")])) with p
              by (clear; induction p; cbn; congruence).
            replace (rows_before_failure (map Ok p)) with p by (clear; induction p; cbn; congruence). reflexivity. }
          rewrite Z in Q. rewrite Q. destruct forallb; apply app_nil_r. }
        split.
        + clear. induction p as [|r p IH]; cbn; auto.
        + rewrite Eq. rewrite Forall_forall in HT. destruct (HT p Hp) as (r & Hr & Ri & _).
          intro C. assert (In r (filter (in_range rng) p)) by now apply filter_In. rewrite C in H. destruct H. }
    rewrite Same in X. cbn in X. congruence.
  - exists (map ev_of ds). rewrite map_ev_rows. split; [exact Srt|]. split.
    + eapply perm_trans; [apply perm_filter, (rows_to_perm (length ps) ds); intros c r Hin; exact (Ch _ Hin)|].
      rewrite filter_concat, map_map.
      rewrite (concat_perm_map _ (fun c => earlier rng T (nth (length ps - 1 - c) ps []))).
      * assert (E : map (fun c => earlier rng T (nth (length ps - 1 - c) ps [])) (seq 0 (length ps))
                  = rev (map (earlier rng T) ps)).
        { clear. apply nth_error_ext. intro c. rewrite nth_error_map.
          destruct (Nat.lt_ge_cases c (length ps)) as [L|L].
          - rewrite (nth_error_nth' (seq 0 (length ps)) 0) by (rewrite seq_length; lia). cbn [option_map].
            rewrite seq_nth by lia. cbn [Nat.add].
            destruct (nth_error ps (length ps - 1 - c)) as [p|] eqn:E.
            2:{ apply nth_error_None in E. lia. }
            rewrite (nth_error_nth _ _ [] E). symmetry.
            assert (Q : nth_error (map (earlier rng T) ps) (length ps - 1 - c) = Some (earlier rng T p)) by now rewrite nth_error_map, E.
            apply nth_rev in Q. rewrite map_length in Q. replace (length ps - 1 - (length ps - 1 - c)) with c in Q by lia. exact Q.
          - rewrite (proj2 (nth_error_None (seq 0 (length ps)) c)) by (rewrite seq_length; lia). symmetry.
            apply nth_error_None. rewrite rev_length, map_length. lia. }
        rewrite E. apply perm_concat, Permutation_sym, Permutation_rev.
      * intros c Hc. apply in_seq in Hc.
        destruct (nth_error ps (length ps - 1 - c)) as [p|] eqn:E.
        2:{ apply nth_error_None in E. lia. }
        rewrite (nth_error_nth _ _ [] E). destruct (Rows _ _ E) as [A B].
        replace (length ps - 1 - (length ps - 1 - c)) with c in A, B by lia.
        rewrite Forall_forall in Hs. exact (between rng p _ (Hs p (nth_error_In _ _ E)) A B).
    + intros rests Lr. cbn zeta. rewrite (Dr rests Lr). destruct (Pre rests Lr) as [_ [z Hz]]. rewrite Hz.
      assert (Ee : events_at lg (out_chain (length ps)) (out_node (length ps)) = map ev_of ds).
      { assert (Hc' : forall e, In e ds -> chain_of e < length ps).
        { intros e He. specialize (Ch e He). destruct e; exact Ch. }
        revert Ex. unfold g, out_chain, out_node. destruct (Nat.ltb_spec 1 (length ps)) as [L|L]; intro Ex.
        - apply cli_each in Ex; auto.
        - apply single_each in Ex; auto. intros e He. specialize (Hc' e He). lia. }
      exists (events_at z (out_chain (length ps)) (out_node (length ps))).
      rewrite <- Ee. unfold events_at. now rewrite filter_app, map_app.
Qed.
Print Assumptions C108_chop.

(** Two inputs of which the first rows have come; range from 2 on; everything before 6 is out:
    the sink [keeper] keeps what it is given. *)
Definition keeper : sink := {| sk_write := fun _ r => Ok [r]; sk_flush := fun _ => Ok tt |}.
Definition at_time (t : N) : row := {| ts := t; vals := [VInt (Z.of_N t)] |}.
Definition so_far : list (list row) := [[at_time 1; at_time 3; at_time 6; at_time 8]; [at_time 2; at_time 5; at_time 7]].
Definition from_2 : ts_range := {| tr_begin := Some 2%N; tr_end := None |}.
Example C108_case :
  Forall time_ordered so_far /\
  Forall (fun p => exists r, In r p /\ in_range from_2 r = true /\ (6 <= ts r)%N) so_far /\
  concat (map (earlier from_2 6%N) so_far) = [at_time 3; at_time 2; at_time 5] /\
  (* one continuation: the first input ends, the second fails *)
  rows_at (r_log (fst (chop 3 (map (pair {| h_names := []; h_types := [] |})
     (going_on so_far [[]; [Err (ECustom "broken")]])) (fun h => Ok (h, keeper)) from_2))) 2 1
  = [at_time 2; at_time 3; at_time 5; at_time 6; at_time 7] /\
  (* another: both go on *)
  rows_at (r_log (fst (chop 3 (map (pair {| h_names := []; h_types := [] |})
     (going_on so_far [[Ok (at_time 9)]; [Ok (at_time 7); Ok (at_time 20)]])) (fun h => Ok (h, keeper)) from_2))) 2 1
  = [at_time 2; at_time 3; at_time 5; at_time 6; at_time 7; at_time 7; at_time 8; at_time 9; at_time 20].
Proof.
  split; [repeat (apply Forall_cons; [repeat constructor; unfold ts_le; cbn; lia|]); constructor|].
  split; [|split; [|split]]; try reflexivity.
  apply Forall_cons; [exists (at_time 6)|apply Forall_cons; [exists (at_time 7)|constructor]];
    (split; [cbn; tauto|split; [reflexivity|cbn; lia]]).
Qed.
(** The condition that every input has come as far as [T] cannot be dropped: the driver waits for
    the row after 3, although 4 and 5 have come. *)
Example C108_waits :
  rows_at (r_log (fst (chop 3 (map (pair {| h_names := []; h_types := [] |})
     (going_on [[at_time 4; at_time 5]; [at_time 3]] [[]; [Err (ECustom "broken")]])) (fun h => Ok (h, keeper)) from_2))) 2 1
  = [at_time 3].
Proof. reflexivity. Qed.

(** Property theorems: the driver (C01-C10, data part of C15).

    [drive F g srcs rng = (s, o)] is a run of Driver::drive: [F] bounds the recursion of the
    traversal (see C15), [g] is the data graph, [srcs] the sources vector, [rng] the time
    range.  [r_devs s] is what the driver handed to the source chains, in order; [r_log s]
    the calls that reached the nodes of the graph, in order; [o] how the run ended. *)
From Verif Require Import DriveFail DriveMore.

(** C01: rows are handed over in time order, however the run ends. *)
Theorem C01_time_order : forall F g srcs rng s o,
  drive F g srcs rng = (s, o) ->
  (forall src, In src srcs -> time_ordered (rows_before_failure src)) ->
  time_ordered (rows_handed (r_devs s)).
Proof. exact drive_sorted. Qed.
Print Assumptions C01_time_order.

(** C02: on success, the chain fed by source [i] (see C05 for its number) got exactly the
    selected rows of source [i], in order; no other rows were handed over; and in any
    case what it got is a prefix of those. *)
Theorem C02_exactly_once : forall F g srcs rng s o,
  drive F g srcs rng = (s, o) ->
  (forall i src, nth_error srcs i = Some src ->
     prefix (rows_to (length srcs - 1 - i) (r_devs s)) (selected rng src)) /\
  (o = Ok tt ->
     (forall i src, nth_error srcs i = Some src ->
        rows_to (length srcs - 1 - i) (r_devs s) = selected rng src) /\
     (forall c r, In (DRow c r) (r_devs s) -> c < length srcs) /\
     Permutation (rows_handed (r_devs s)) (concat (map (selected rng) srcs))).
Proof.
  exact (fun F g srcs rng s o H =>
    conj (fun i src Hi => proj1 (drive_rows F g srcs rng s o H i src Hi))
      (fun Ho => conj (fun i src Hi => proj2 (drive_rows F g srcs rng s o H i src Hi) Ho)
        (conj (fun c r Hin => drive_chains F g srcs rng s o H (DRow c r) Hin)
              (drive_perm F g srcs rng s (eq_ind o (fun o => drive F g srcs rng = (s, o)) H (Ok tt) Ho))))).
Qed.
Print Assumptions C02_exactly_once.

(** Rows with [begin <= t < end]. *)
Definition in_range (rng : ts_range) (r : row) : bool :=
  match tr_begin rng with Some b0 => (b0 <=? ts r)%N | None => true end &&
  match tr_end rng with Some e => (ts r <? e)%N | None => true end.

Lemma C03_proof : forall F g srcs rng s o,
  drive F g srcs rng = (s, o) ->
  (forall r, In r (rows_handed (r_devs s)) ->
     in_range rng r = true /\ exists src, In src srcs /\ In (Ok r) src) /\
  (o = Ok tt -> forall i rows, nth_error srcs i = Some (map Ok rows) -> time_ordered rows ->
     rows_to (length srcs - 1 - i) (r_devs s) = filter (in_range rng) rows).
Proof.
  intros F g srcs rng s o H. split.
  - intros r Hr. destruct (drive_row_origin _ _ _ _ _ _ H r Hr) as (src & A & B & C & D).
    split; [|eauto]. unfold in_range. unfold before_end in C. unfold from_begin in D.
    now rewrite C, D.
  - intros Ho i rows Hi Hs. destruct (drive_rows _ _ _ _ _ _ H _ _ Hi) as [_ E].
    rewrite (E Ho). unfold selected.
    replace (rows_before_failure (map Ok rows)) with rows
      by (clear; induction rows; cbn; congruence).
    apply Sorted_StronglySorted in Hs; [|exact ts_le_trans].
    rewrite (until_end_sorted _ _ Hs), filter_filter. reflexivity.
Qed.

(** C03 *)
Theorem C03_half_open_range : forall F g srcs rng s o,
  drive F g srcs rng = (s, o) ->
  (forall r, In r (rows_handed (r_devs s)) ->
     in_range rng r = true /\ exists src, In src srcs /\ In (Ok r) src) /\
  (o = Ok tt -> forall i rows, nth_error srcs i = Some (map Ok rows) -> time_ordered rows ->
     rows_to (length srcs - 1 - i) (r_devs s) = filter (in_range rng) rows).
Proof. exact C03_proof. Qed.
Print Assumptions C03_half_open_range.

(** C04: when row [r] is handed over (to chain [c], i.e. from source [n-1-c]) and source [j]
    has row [r'] pending at that moment, then [r] is earlier, or as early and from a source
    at least as late in the vector. *)
Lemma C04_proof : forall F g srcs rng s o,
  drive F g srcs rng = (s, o) ->
  forall pre c r post, r_devs s = pre ++ DRow c r :: post ->
  forall j src r', nth_error srcs j = Some src ->
    nth_error (selected rng src) (length (rows_to (length srcs - 1 - j) pre)) = Some r' ->
    (ts r < ts r')%N \/ (ts r = ts r' /\ j <= length srcs - 1 - c).
Proof.
  intros F g srcs rng s o H pre c r post E j src r' Hj Hr.
  assert (j < length srcs) by (apply nth_error_Some; congruence).
  assert (c < length srcs).
  { apply (drive_chains _ _ _ _ _ _ H (DRow c r)). rewrite E. apply in_elt. }
  destruct (drive_pick _ _ _ _ _ _ H pre c r post E j src r' Hj Hr) as [L|[A B]]; [now left|].
  right. split; [exact A|lia].
Qed.
Theorem C04_tie_break : forall F g srcs rng s o,
  drive F g srcs rng = (s, o) ->
  forall pre c r post, r_devs s = pre ++ DRow c r :: post ->
  forall j src r', nth_error srcs j = Some src ->
    nth_error (selected rng src) (length (rows_to (length srcs - 1 - j) pre)) = Some r' ->
    (ts r < ts r')%N \/ (ts r = ts r' /\ j <= length srcs - 1 - c).
Proof. exact C04_proof. Qed.
Print Assumptions C04_tie_break.

(** C04: rows of one time come out source by source, the last source of the vector first, each
    source's in its own order; with C01 this determines the merge completely. *)
Theorem C04_equal_times : forall F g srcs rng s,
  drive F g srcs rng = (s, Ok tt) ->
  (forall src, In src srcs -> time_ordered (rows_before_failure src)) ->
  forall t, filter (fun r => (ts r =? t)%N) (rows_handed (r_devs s)) =
            concat (map (fun src => filter (fun r => (ts r =? t)%N) (selected rng src)) (rev srcs)).
Proof. exact drive_ties. Qed.
Print Assumptions C04_equal_times.

(** C06 fails: a source without a row in range never lets the run succeed … *)
Theorem C06_empty_source_refuted : forall F g srcs rng s o,
  drive F g srcs rng = (s, o) ->
  (exists src, In src srcs /\ selected rng src = []) -> o <> Ok tt.
Proof. exact drive_empty_source. Qed.
Print Assumptions C06_empty_source_refuted.

(** … what does hold: if every source is readable and has a row in range, and the graph
    accepts whatever it is given, the run succeeds. *)
Theorem C06_nonempty_sources_partial : forall F g srcs rng s o,
  drive F g srcs rng = (s, o) ->
  (forall src, In src srcs -> readable rng src /\ selected rng src <> []) ->
  (forall lg e, match e with
                | DRow c r => c < length srcs /\ exists src, In src srcs /\ In r (selected rng src)
                | DFlush c => c < length srcs
                end ->
        exists lg', apply_ev F g lg e = (lg', Ok tt)) ->
  o = Ok tt.
Proof. exact drive_success. Qed.
Print Assumptions C06_nonempty_sources_partial.

(** C07 *)
Theorem C07_flushed : forall F g srcs rng s,
  drive F g srcs rng = (s, Ok tt) ->
  (forall c d n, c < length srcs -> reach g c d -> node_at g d n <> None ->
     In (V d n EvFlush) (r_log s)) /\
  (forall pre c n r post, r_log s = pre ++ V c n (EvRow r) :: post ->
     In (V c n EvFlush) post).
Proof.
  exact (fun F g srcs rng s H => conj (drive_flush_reach F g srcs rng s H)
                                      (drive_flush_after F g srcs rng s H)).
Qed.
Print Assumptions C07_flushed.

(** C08: the node after sink [k] receives exactly the rows [k] emitted in answer to the
    calls it received, in order; the node after a split or merge exactly its rows. *)
Theorem C08_pipeline : forall F g srcs rng s,
  drive F g srcs rng = (s, Ok tt) -> acyclic g ->
  forall c n nd, node_at g c n = Some nd -> node_at g c (S n) <> None ->
    rows_at (r_log s) c (S n) =
    match nd with
    | DSink k => emitted k [] (events_at (r_log s) c n)
    | _ => rows_at (r_log s) c n
    end.
Proof. exact drive_pipe. Qed.
Print Assumptions C08_pipeline.

(** C09: in a run, and for a single delivery. *)
Theorem C09_tee : forall F g srcs rng s,
  drive F g srcs rng = (s, Ok tt) -> acyclic g ->
  forall pre c n r post nd, r_log s = pre ++ V c n (EvRow r) :: post ->
    node_at g c n = Some nd -> (forall k, nd <> DSink k) -> tees g c n r (targets nd) post.
Proof. exact drive_tees. Qed.
Print Assumptions C09_tee.

Theorem C09_tee_delivery : forall F g lg c n r lg' nd,
  acyclic g -> node_at g c n = Some nd -> (forall k, nd <> DSink k) ->
  process_row F g lg c n r = (lg', Ok tt) ->
  exists segs tl,
    lg' = lg ++ V c n (EvRow r) :: concat segs ++ tl /\
    Forall2 (fun d seg => delivered_once g d 0 r seg) (targets nd) segs /\
    (forall seg v, In seg segs -> In v seg -> v_chain v <> c) /\
    delivered_once g c (S n) r tl.
Proof.
  exact (fun F g lg c n r lg' nd Ha Hat Hk H =>
    match Ha with ex_intro _ rank Hr => process_row_tee g rank Hr F lg c n r lg' nd Hat Hk H end).
Qed.
Print Assumptions C09_tee_delivery.

(** C10: compare a run with the run in which every failing sink call and every failing read
    is repaired.  Everything handed over and every call made is a prefix of that run's; and
    nothing changes if the run succeeded. *)
Theorem C10_prefix_of_failure_free : forall F g g' srcs srcs' rng s o s' o',
  graph_repair g g' -> Forall2 source_repair srcs srcs' ->
  drive F g srcs rng = (s, o) -> drive F g' srcs' rng = (s', o') ->
  (o = Ok tt -> s' = s /\ o' = Ok tt) /\
  prefix (r_devs s) (r_devs s') /\ prefix (r_log s) (r_log s').
Proof. exact drive_repair. Qed.
Print Assumptions C10_prefix_of_failure_free.

(** C10: a failure of the run is the failure of a source, or of the last sink call made
    (a panic may also be C06's or a chain number outside the graph). *)
Theorem C10_returns_the_failure : forall F g srcs rng s o,
  drive F g srcs rng = (s, o) -> o <> Ok tt ->
  (exists src x, In src srcs /\ first_failure src = Some x /\ is_ok x = false /\ o = fail_as x) \/
  last_call_was g (r_log s) o \/
  (o = Panic /\ ((exists src, In src srcs /\ selected rng src = []) \/ dangling g (length srcs))) \/
  (o = NoFuel /\ exists lg e, snd (apply_ev F g lg e) = NoFuel).
Proof. exact drive_cause. Qed.
Print Assumptions C10_returns_the_failure.

(** and a run that succeeds had no failing source: each was read to its end, or to the end of
    the range, and gave at least one row. *)
Theorem C10_success_is_clean : forall F g srcs rng s,
  drive F g srcs rng = (s, Ok tt) ->
  forall src, In src srcs -> readable rng src /\ selected rng src <> [].
Proof. exact drive_ok_readable. Qed.
Print Assumptions C10_success_is_clean.

(** C15 (data graph): on an acyclic graph, whose sinks and sources return, a run ends: some
    recursion depth suffices for every range, and a larger one changes nothing. *)
Theorem C15_data_terminates : forall g srcs,
  acyclic g -> sinks_return g -> (forall src, In src srcs -> ~ In NoFuel src) ->
  exists F0, forall F rng, F0 <= F ->
    snd (drive F g srcs rng) <> NoFuel /\
    (forall F', F <= F' -> drive F' g srcs rng = drive F g srcs rng).
Proof.
  exact (fun g srcs Ha Hr Hs =>
    match drive_terminates g srcs Ha Hr Hs with
    | ex_intro _ F0 H => ex_intro _ F0 (fun F rng HF => conj (H F rng HF)
        (fun F' HF' => drive_mono g srcs rng F F' HF' (H F rng HF)))
    end).
Qed.
Print Assumptions C15_data_terminates.

(** C15: acyclicity is needed: a chain that merges into itself never ends. *)
Theorem C15_cyclic_diverges : forall F lg r,
  snd (process_row F [[DMerge 0]] lg 0 0 r) = NoFuel /\
  snd (flush F [[DMerge 0]] lg 0) = NoFuel.
Proof. exact cyclic_diverges. Qed.
Print Assumptions C15_cyclic_diverges.

(** ** The hypotheses are met: two chains merging into a third, with a sink that doubles. *)
Definition R (t : N) : row := {| ts := t; vals := [] |}.
Definition dbl : sink := {| sk_write := fun _ r => Ok [r; r]; sk_flush := default_flush |}.
Definition ex_g : dgraph := [[DMerge 2]; [DSink dbl; DSplit [2]]; [DSink pass_sink; DSink dbl]].
Definition ex_srcs : list source := [map Ok [R 1; R 4; R 9]; map Ok [R 4; R 5; R 20]].
Definition ex_rng : ts_range := {| tr_begin := Some 2%N; tr_end := Some 20%N |}.

Example ex_acyclic : acyclic ex_g.
Proof.
  exists (fun c => 2 - c). intros c d (chain & nd & Hc & Hin & Hd).
  destruct c as [|[|[|c]]]; cbn in Hc; try discriminate.
  - injection Hc as <-. destruct Hin as [<-|[]]. destruct Hd as [<-|[]]. lia.
  - injection Hc as <-. destruct Hin as [<-|[<-|[]]]; [destruct Hd|]. destruct Hd as [<-|[]]. lia.
  - injection Hc as <-. destruct Hin as [<-|[<-|[]]]; destruct Hd.
  - destruct c; discriminate.
Qed.
Example ex_run : exists s, drive 10 ex_g ex_srcs ex_rng = (s, Ok tt) /\
  r_devs s = [DRow 0 (R 4); DRow 1 (R 4); DRow 0 (R 5); DFlush 0; DRow 1 (R 9); DFlush 1] /\
  rows_at (r_log s) 2 1 = [R 4; R 4; R 4; R 5; R 9; R 9].
Proof. eexists. split; [reflexivity|]. split; reflexivity. Qed.
Example ex_sorted : forall src, In src ex_srcs -> time_ordered (rows_before_failure src).
Proof.
  intros src [<-|[<-|[]]]; unfold time_ordered; cbn; repeat constructor; unfold ts_le; cbn; lia.
Qed.
Example ex_returns : sinks_return ex_g.
Proof.
  intros chain k Hc Hk. cbn in Hc.
  repeat (destruct Hc as [<-|Hc]; [cbn in Hk; repeat (destruct Hk as [Hk|Hk];
    [try discriminate; injection Hk as <-; split; intros; cbn; discriminate|]); destruct Hk|]).
  destruct Hc.
Qed.
(* a failing sink and its repair; the run fails with the sink's error *)
Definition bad : sink :=
  {| sk_write := fun past r => match past with [] => Ok [r] | _ => Err ETime end;
     sk_flush := default_flush |}.
Example ex_repair : graph_repair [[DSink bad]] [[DSink pass_sink]].
Proof.
  repeat constructor. intros h r x. cbn. destruct h; [auto|discriminate].
Qed.
Example ex_fail : exists s, drive 5 [[DSink bad]] [map Ok [R 1; R 2; R 3]] {| tr_begin := None; tr_end := None |}
  = (s, Err ETime) /\ r_devs s = [DRow 0 (R 1); DRow 0 (R 2)].
Proof. eexists. split; reflexivity. Qed.
(* C06's empty source *)
Example ex_empty : exists s, drive 5 [[DSink pass_sink]; [DSink pass_sink]] [map Ok [R 1]; []]
  {| tr_begin := None; tr_end := None |} = (s, Panic).
Proof. eexists. reflexivity. Qed.

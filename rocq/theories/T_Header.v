(** Property theorems: header processing, Driver::new and the command line's graph
    (C05, C11-C14, header part of C15).

    [driver_new n hg hs = Ok g]: Driver::new, given [n] sources, header graph [hg] and
    headers [hs], succeeded with data graph [g]. *)
From Verif Require Import HeaderFull.

(** C05 fails for two or more sources: header [i] enters chain [i] (its first header sinks
    are given [headers[i]]), but the rows handed to chain [i] are those of source
    [n - 1 - i]. *)
Lemma C05_proof : forall F srcs hg rng hs g s,
  fresh hg -> driver_new (length srcs) hg hs = Ok g -> drive F g srcs rng = (s, Ok tt) ->
  (forall i h nodes dnodes, nth_error hs i = Some h -> nth_error hg i = Some nodes ->
     nth_error g i = Some dnodes -> dnodes = [] \/ exists sends, built h nodes dnodes sends) /\
  (forall i src, i < length srcs -> nth_error srcs (length srcs - 1 - i) = Some src ->
     rows_to i (r_devs s) = selected rng src).
Proof.
  intros F srcs hg rng hs g s Hf Hn Hd. unfold driver_new in Hn.
  destruct (length hg <? length srcs) eqn:El; [discriminate|].
  destruct (process_header_graph _ _ _ Hf Hn) as (_ & _ & en & En & Hb). split.
  - intros i h nodes dnodes Hh Hg Hdn. destruct (Hb _ _ _ Hg Hdn) as [E|(h0 & sends & E0 & B0 & _)]; [auto|].
    right. rewrite (En _ _ Hh) in E0. injection E0 as <-. eauto.
  - intros i src Hi Hs. destruct (drive_rows _ _ _ _ _ _ Hd _ _ Hs) as [_ E].
    rewrite <- (E eq_refl). f_equal. lia.
Qed.
Theorem C05_reversed : forall F srcs hg rng hs g s,
  fresh hg -> driver_new (length srcs) hg hs = Ok g -> drive F g srcs rng = (s, Ok tt) ->
  (forall i h nodes dnodes, nth_error hs i = Some h -> nth_error hg i = Some nodes ->
     nth_error g i = Some dnodes -> dnodes = [] \/ exists sends, built h nodes dnodes sends) /\
  (forall i src, i < length srcs -> nth_error srcs (length srcs - 1 - i) = Some src ->
     rows_to i (r_devs s) = selected rng src).
Proof. exact C05_proof. Qed.
Print Assumptions C05_reversed.

(** Hence "source [i] feeds chain [i]" is refuted by every run in which sources [i] and
    [n - 1 - i] do not have the same rows in range; *)
Theorem C05_source_feeds_chain_refuted : forall F g srcs rng s i src src',
  drive F g srcs rng = (s, Ok tt) ->
  nth_error srcs i = Some src -> nth_error srcs (length srcs - 1 - i) = Some src' ->
  selected rng src <> selected rng src' ->
  rows_to i (r_devs s) <> selected rng src.
Proof.
  exact (fun F g srcs rng s i src src' H Hi Hj Hne E =>
    Hne (eq_trans (eq_sym E)
      (eq_trans
        (f_equal (fun c => rows_to c (r_devs s))
          (eq_sym (ltac:(assert (i < length srcs) by (apply nth_error_Some; congruence); lia)
             : length srcs - 1 - (length srcs - 1 - i) = i)))
        (proj2 (drive_rows F g srcs rng s (Ok tt) H _ _ Hj) eq_refl)))).
Qed.
Print Assumptions C05_source_feeds_chain_refuted.
(** it holds for the middle source of an odd number of sources, e.g. a single one. *)
Theorem C05_middle_source_partial : forall F g srcs rng s i src,
  drive F g srcs rng = (s, Ok tt) -> length srcs = 2 * i + 1 -> nth_error srcs i = Some src ->
  rows_to i (r_devs s) = selected rng src.
Proof.
  exact (fun F g srcs rng s i src H L Hi =>
    eq_trans (f_equal (fun c => rows_to c (r_devs s)) (ltac:(lia) : i = length srcs - 1 - i))
             (proj2 (drive_rows F g srcs rng s (Ok tt) H _ _ Hi) eq_refl)).
Qed.
Print Assumptions C05_middle_source_partial.

(** C11 and C12 in one: if Driver::new succeeds, every chain [k] has one entry header
    [entry k] such that
    - header [i] of the list is the entry header of chain [i];
    - the data chain is empty or built from the header chain, node by node, starting with
      the entry header; and
    - every header a Merge node sends to a chain [d] equals the entry header of [d]. *)
Lemma C11_proof : forall n hg hs g,
  fresh hg -> driver_new n hg hs = Ok g ->
  length g = length hg /\ length hs <= length hg /\ n <= length hg /\
  exists entry : nat -> option header,
    (forall i h, nth_error hs i = Some h -> entry i = Some h) /\
    (forall k nodes dnodes, nth_error hg k = Some nodes -> nth_error g k = Some dnodes ->
       dnodes = [] \/
       exists h sends, entry k = Some h /\ built h nodes dnodes sends /\
         forall d h', In (d, h') sends -> entry d = Some h').
Proof.
  intros n hg hs g Hf H. unfold driver_new in H.
  destruct (Nat.ltb_spec (length hg) n); [discriminate|].
  destruct (process_header_graph _ _ _ Hf H) as (A & B0 & C). repeat split; auto.
Qed.
Theorem C11_merged_headers_equal_partial : forall n hg hs g,
  fresh hg -> driver_new n hg hs = Ok g ->
  length g = length hg /\ length hs <= length hg /\ n <= length hg /\
  exists entry : nat -> option header,
    (forall i h, nth_error hs i = Some h -> entry i = Some h) /\
    (forall k nodes dnodes, nth_error hg k = Some nodes -> nth_error g k = Some dnodes ->
       dnodes = [] \/
       exists h sends, entry k = Some h /\ built h nodes dnodes sends /\
         forall d h', In (d, h') sends -> entry d = Some h').
Proof. exact C11_proof. Qed.
Print Assumptions C11_merged_headers_equal_partial.

(** A header that differs from the one the MergeJoin holds is an error, *)
Theorem C11_mismatch_is_error : forall rec hg dg d h h0 n rest,
  nth_error hg d = Some (HMerge (Some h0) (S n) :: rest) -> h <> h0 ->
  check_merge_header rec (hg, dg) d h = Err (ECustom "MuxHeaderSink -- wrong header").
Proof. exact merge_mismatch. Qed.
Print Assumptions C11_mismatch_is_error.

(** but headers that reach a MergeJoin through Split nodes are not compared: *)
Definition H1 : header := {| h_names := [b "x"]; h_types := [TInt] |}.
Definition H2 : header := {| h_names := [b "y"]; h_types := [TString] |}.
Definition keep : header_sink := fun h => Ok (h, pass_sink).
Theorem C11_split_unchecked_refuted :
  H1 <> H2 /\
  exists g, driver_new 2 [[split_node [2]]; [split_node [2]]; [HMerge None 2; HSink keep]] [H1; H2] = Ok g.
Proof. split; [discriminate|]. eexists. reflexivity. Qed.
Print Assumptions C11_split_unchecked_refuted.

(** C12 *)
Lemma C12_proof : forall n hg hs g,
  fresh hg -> driver_new n hg hs = Ok g ->
  length g = length hg /\
  forall k nodes dnodes, nth_error hg k = Some nodes -> nth_error g k = Some dnodes ->
    dnodes = [] \/ Forall2 mirrors nodes dnodes.
Proof.
  intros n hg hs g Hf H. destruct (C11_proof _ _ _ _ Hf H) as (A & _ & _ & en & _ & Hb).
  split; [exact A|]. intros k nodes dnodes Hk Hd.
  destruct (Hb _ _ _ Hk Hd) as [E|(h & sends & _ & B0 & _)]; [auto|]. right. eapply built_mirrors; eauto.
Qed.
Theorem C12_mirror : forall n hg hs g,
  fresh hg -> driver_new n hg hs = Ok g ->
  length g = length hg /\
  forall k nodes dnodes, nth_error hg k = Some nodes -> nth_error g k = Some dnodes ->
    dnodes = [] \/ Forall2 mirrors nodes dnodes.
Proof. exact C12_proof. Qed.
Print Assumptions C12_mirror.

(** The chain is there in full if a header reaches it: a source's header (a chain that does not
    start with a merge), or through a split.  For merges see C13. *)
Lemma C12_complete_proof : forall n hg hs g,
  fresh hg -> driver_new n hg hs = Ok g ->
  forall k nodes, nth_error hg k = Some nodes ->
    (k < length hs /\ (forall st m rest, nodes <> HMerge st m :: rest)) \/
    (exists c chain ids, nth_error g c = Some chain /\ In (DSplit ids) chain /\ In k ids) ->
    exists dnodes, nth_error g k = Some dnodes /\ Forall2 mirrors nodes dnodes.
Proof.
  intros n hg hs g Hf H k nodes Hk Hr. unfold driver_new in H.
  destruct (Nat.ltb_spec (length hg) n); [discriminate|].
  destruct (process_header_full _ _ _ Hf H k nodes Hk Hr) as (h & sends & dn & Hd & B0 & _).
  exists dn. split; [exact Hd|]. eapply built_mirrors; eauto.
Qed.
Theorem C12_complete : forall n hg hs g,
  fresh hg -> driver_new n hg hs = Ok g ->
  forall k nodes, nth_error hg k = Some nodes ->
    (k < length hs /\ (forall st m rest, nodes <> HMerge st m :: rest)) \/
    (exists c chain ids, nth_error g c = Some chain /\ In (DSplit ids) chain /\ In k ids) ->
    exists dnodes, nth_error g k = Some dnodes /\ Forall2 mirrors nodes dnodes.
Proof. exact C12_complete_proof. Qed.
Print Assumptions C12_complete.

(** C13 fails: a MergeJoin that expects more headers than arrive is accepted, its chain
    stays empty and the rows sent to it are lost (the run still succeeds). *)
Definition ex_under : hgraph := [[HGoto 1]; [HMerge None 2; HSink keep]].
Theorem C13_underfed_refuted :
  exists g s, driver_new 1 ex_under [H1] = Ok g /\ nth_error g 1 = Some [] /\
    drive 5 g [[Ok {| ts := 7%N; vals := [VInt 1] |}]] range_all = (s, Ok tt) /\
    (forall v, In v (r_log s) -> v_chain v <> 1).
Proof.
  eexists. eexists. split; [reflexivity|]. split; [reflexivity|]. split; [reflexivity|].
  intros v [<-|[<-|[]]]; discriminate.
Qed.
Print Assumptions C13_underfed_refuted.
(** One that expects fewer is rejected by a panic, not by an error. *)
Theorem C13_overfed_panics_refuted :
  driver_new 2 [[HGoto 2]; [HGoto 2]; [HMerge None 1; HSink keep]] [H1; H1] = Panic.
Proof. reflexivity. Qed.
Print Assumptions C13_overfed_panics_refuted.
(** What holds: never more headers than expected, and the chain exists exactly if the
    expected number arrived. *)
Lemma C13_proof : forall ns hg hs g d n rest,
  fresh hg -> driver_new ns hg hs = Ok g ->
  nth_error hg d = Some (HMerge None n :: rest) -> not_split_target hg d ->
  arrivals g (length hs) d <= n /\
  (exists dnodes, nth_error g d = Some dnodes /\ (dnodes <> [] <-> arrivals g (length hs) d = n)).
Proof.
  intros ns hg hs g d n rest Hf H. unfold driver_new in H.
  destruct (length hg <? ns); [discriminate|]. now apply merge_count.
Qed.
Theorem C13_merge_count_partial : forall ns hg hs g d n rest,
  fresh hg -> driver_new ns hg hs = Ok g ->
  nth_error hg d = Some (HMerge None n :: rest) -> not_split_target hg d ->
  arrivals g (length hs) d <= n /\
  (exists dnodes, nth_error g d = Some dnodes /\ (dnodes <> [] <-> arrivals g (length hs) d = n)).
Proof. exact C13_proof. Qed.
Print Assumptions C13_merge_count_partial.

(** A MergeJoin for no inputs at all cannot be made, any other can. *)
Theorem C13_none_refused : forall n, (exists e, merge_join n = Err (ECustom e)) /\ n = 0 \/ (exists node, merge_join n = Ok node) /\ 1 <= n.
Proof. intros [|n]; [left|right]; (split; [cbn; eauto|lia]). Qed.
Print Assumptions C13_none_refused.

(** C14: [calls] is what the output sink was called with, in order: the rows are those in
    range of all inputs, each once, in time order if the inputs are, and the last call is
    a flush. The output's header sink was given the common header, once. *)
Theorem C14_chop : forall F inputs out rng h h' k s,
  inputs <> [] -> (forall i, In i inputs -> fst i = h) -> out h = Ok (h', k) ->
  chop F inputs out rng = (s, Ok tt) ->
  let calls := events_at (r_log s) (out_chain (length inputs)) (out_node (length inputs)) in
  calls = map ev_of (r_devs s) /\
  Permutation (ev_rows calls) (concat (map (selected rng) (map snd inputs))) /\
  ((forall i, In i inputs -> time_ordered (rows_before_failure (snd i))) -> time_ordered (ev_rows calls)) /\
  exists pre, calls = pre ++ [EvFlush].
Proof. exact chop_ok. Qed.
Print Assumptions C14_chop.

(** Rows of equal time: those of the last input first; a single input is copied in order. *)
Theorem C14_order : forall F inputs out rng h h' k s,
  inputs <> [] -> (forall i, In i inputs -> fst i = h) -> out h = Ok (h', k) ->
  chop F inputs out rng = (s, Ok tt) ->
  let rows := ev_rows (events_at (r_log s) (out_chain (length inputs)) (out_node (length inputs))) in
  ((forall i, In i inputs -> time_ordered (rows_before_failure (snd i))) ->
   forall t, filter (fun r => (ts r =? t)%N) rows =
             concat (map (fun i => filter (fun r => (ts r =? t)%N) (selected rng (snd i))) (rev inputs))) /\
  (forall i, inputs = [i] -> rows = selected rng (snd i)).
Proof. exact chop_order. Qed.
Print Assumptions C14_order.

(** The graph: the output sink [k] obtained for header [h] is a node of it, once. *)
Theorem C14_graph : forall F inputs out rng h h' k,
  inputs <> [] -> (forall i, In i inputs -> fst i = h) -> out h = Ok (h', k) ->
  chop F inputs out rng =
  drive F (if 1 <? length inputs
           then repeat [DMerge (length inputs)] (length inputs) ++ [[DSink pass_sink; DSink k]]
           else [[DSink k]]) (map snd inputs) rng.
Proof. exact chop_drive. Qed.
Print Assumptions C14_graph.

(** It succeeds, if the output accepts the rows in range and every input is readable and has a row
    in range (C06); it fails for inputs with different headers, before reading a row. *)
Theorem C14_succeeds : forall F inputs out rng h h' k,
  3 <= F -> inputs <> [] -> (forall i, In i inputs -> fst i = h) -> out h = Ok (h', k) ->
  (forall i past r, In i inputs -> In r (selected rng (snd i)) -> exists rows, sk_write k past r = Ok rows) ->
  (forall past, sk_flush k past = Ok tt) ->
  (forall i, In i inputs -> readable rng (snd i) /\ selected rng (snd i) <> []) ->
  snd (chop F inputs out rng) = Ok tt.
Proof. exact chop_success. Qed.
Print Assumptions C14_succeeds.
Theorem C14_different_headers : forall F inputs out rng i j,
  In i inputs -> In j inputs -> fst i <> fst j ->
  chop F inputs out rng = (run0, Err (ECustom "MuxHeaderSink -- wrong header")).
Proof. exact chop_mismatch. Qed.
Print Assumptions C14_different_headers.

(** C15 (headers): header processing ends, for every graph, cyclic or not: recursion depth
    2 + number of nodes suffices and more changes nothing. *)
Theorem C15_headers_terminate : forall hg hs f,
  header_sinks_return hg -> hfuel hg <= f ->
  process_headers f (hg, repeat [] (length hg)) 0 hs <> NoFuel /\
  (let* s := process_headers f (hg, repeat [] (length hg)) 0 hs in Ok (snd s)) = process_header hg hs.
Proof. exact process_header_depth. Qed.
Print Assumptions C15_headers_terminate.

(** ** The hypotheses are met *)
Definition add_col : header_sink :=
  fun h => Ok ({| h_names := h_names h ++ [b "c"]; h_types := h_types h ++ [TInt] |}, pass_sink).
Definition ex_hg : hgraph :=
  [[HSink add_col; HGoto 3]; [HSink add_col; split_node [2]; HGoto 3]; [HSink keep];
   [HMerge None 2; HSink add_col]].
Example ex_fresh : fresh ex_hg.
Proof. repeat constructor; auto. Qed.
Example ex_new : driver_new 2 ex_hg [H1; H1] =
  Ok [[DSink pass_sink; DMerge 3]; [DSink pass_sink; DSplit [2]; DMerge 3]; [DSink pass_sink];
      [DSink pass_sink; DSink pass_sink]].
Proof. reflexivity. Qed.
Example ex_not_split : not_split_target ex_hg 3.
Proof.
  intros chain ids n Hc Hi. cbn in Hc.
  repeat (destruct Hc as [<-|Hc]; [cbn in Hi; unfold split_node in Hi;
    repeat (destruct Hi as [Hi|Hi]; [try discriminate; injection Hi as <- <-; cbn; lia|]); destruct Hi|]).
  destruct Hc.
Qed.
Example ex_arrivals : forall g, driver_new 2 ex_hg [H1; H1] = Ok g -> arrivals g 2 3 = 2.
Proof. intros g [= <-]. reflexivity. Qed.
Example ex_returns_h : header_sinks_return ex_hg.
Proof.
  intros chain f h Hc Hi. cbn in Hc.
  repeat (destruct Hc as [<-|Hc]; [cbn in Hi; unfold split_node in Hi;
    repeat (destruct Hi as [Hi|Hi]; [try discriminate; injection Hi as <-; discriminate|]); destruct Hi|]).
  destruct Hc.
Qed.
(* a header graph that refers to itself ends in an error or a panic *)
Example ex_cyclic : driver_new 1 [[HGoto 0]] [H1] = Panic /\
  driver_new 1 [[split_node [0]]] [H1] = Ok [[DSplit [0]]].
Proof. split; reflexivity. Qed.
(* chop over three inputs *)
Definition r3 (t : N) (x : Z) : row := {| ts := t; vals := [VInt x] |}.
Definition ex_inputs : list (header * source) :=
  [(H1, [Ok (r3 1 1); Ok (r3 5 2)]); (H1, [Ok (r3 5 3); Ok (r3 9 4)]); (H1, [Ok (r3 2 5)])].
Example ex_chop : exists s, chop 3 ex_inputs keep range_all = (s, Ok tt) /\
  ev_rows (events_at (r_log s) 3 1) = [r3 1 1; r3 2 5; r3 5 3; r3 5 2; r3 9 4].
Proof. eexists. split; reflexivity. Qed.
(* two sources with different rows: C05 *)
Example ex_c05 : exists s, drive 5 [[DSink pass_sink]; [DSink pass_sink]]
    [[Ok (r3 1 1)]; [Ok (r3 2 2)]] range_all = (s, Ok tt) /\
  rows_to 0 (r_devs s) = [r3 2 2] /\ rows_to 1 (r_devs s) = [r3 1 1].
Proof. eexists. repeat split; reflexivity. Qed.

(** Model of src/chopper/header_graph.rs, src/driver/merge_join.rs, src/driver/split.rs,
    Driver::new of src/driver/driver.rs and the graph part of src/chopper_cli.rs. *)
From Verif Require Export DriverModel.

(* src/chopper/header_graph.rs:6-15  HeaderNode.
   MergeHeaderSink is modelled with the only implementation in the crate, MergeJoin
   (src/driver/merge_join.rs:6-9): [st] is its [header] field, [count] the tracker's
   unprocessed_count.  SplitHeaderSink likewise with Split (src/driver/split.rs:5-7). *)
Inductive hnode :=
| HSink (f : header_sink)
| HMerge (st : option header) (count : nat)
| HSplit (ids : list nat) (count : nat)
| HGoto (c : nat).                                (* HeaderNode::Merge(ChainId) *)

(* src/chopper/header_graph.rs:17-23  HeaderChain, HeaderGraph *)
Notation hchain := (list hnode) (only parsing).
Notation hgraph := (list (list hnode)) (only parsing).

(* src/driver/merge_join.rs:12-23 MergeJoin::new, with :56-60 get_new_header_count_tracker *)
Definition merge_join (n : nat) : res hnode :=
  match n with
  | O => Err (ECustom "MergeJoin -- number of inputs must be at least 1")
  | S _ => Ok (HMerge None n)
  end.

(* src/driver/split.rs:10-13 Split::new, with :21-25 get_new_header_count_tracker *)
Definition split_node (ids : list nat) : hnode := HSplit ids (length ids).

(* src/driver/merge_join.rs:31-41 check_header, giving the new state *)
Definition check_header (st : option header) (h : header) : res (option header) :=
  match st with
  | Some h0 => if header_eqb h h0 then Ok st else Err (ECustom "MuxHeaderSink -- wrong header")
  | None => Ok (Some h)
  end.

(* src/driver/merge_join.rs:47-54 get_data_sink; the DataSink of MergeJoin (:63-67) has
   the default write_row and flush *)
Definition merge_data_sink (st : option header) : res sink :=
  match st with
  | Some _ => Err (ECustom "MuxHeaderSink -- all the headers must be processed before returning DataSink")
  | None => Ok pass_sink
  end.

(* src/chopper/data_graph.rs:60-73 add_node *)
Definition add_node (g : dgraph) (nd : dnode) (c : nat) : res dgraph :=
  match nth_error g c with
  | Some chain => list_set c (chain ++ [nd]) g
  | None => Err (ECustom "DataGraph -- index out of bound.")
  end.

(* .unwrap() on a CliResult *)
Definition unwrap_res {A} (r : res A) : res A :=
  match r with Err _ => Panic | x => x end.

(* src/chopper/header_graph.rs:80-84 swap_remove: push an empty chain, then
   Vec::swap_remove(c) *)
Definition swap_remove (hg : hgraph) (c : nat) : res (hchain * hgraph) :=
  match nth_error hg c with
  | Some chain => let* hg' := list_set c [] hg in Ok (chain, hg')
  | None => if c =? length hg then Ok ([], hg) else Panic
  end.

Definition hstate := (hgraph * dgraph)%type.

(* src/chopper/header_graph.rs:128-164 check_merge_header; [rec] is match_remove_chain *)
Definition check_merge_header (rec : hstate -> nat -> header -> res hstate)
    (s : hstate) (c : nat) (h : header) : res hstate :=
  let (hg, dg) := s in
  match nth_error hg c with
  | None => Err (ECustom "HeaderGraph -- index out of bounds")
  | Some [] => Panic                                              (* :135 unwrap *)
  | Some (HMerge st count :: rest) =>
      match count with
      | O => Err (ECustom "HeaderGraph -- unprocessed header count must be at least 1")
      | S count' =>
          let* st' := check_header st h in
          match count' with
          | S _ =>
              let* hg' := list_set c (HMerge st' count' :: rest) hg in
              Ok (hg', dg)
          | O =>
              let* h0 := unwrap st' in                            (* merge_join.rs:44 *)
              let* hg' := list_set c (HMerge None 0 :: rest) hg in
              rec (hg', dg) c h0
          end
      end
  | Some (_ :: _) => Err (ECustom "HeaderGraph -- expected MergeHeaderSink")
  end.

(* src/chopper/header_graph.rs:111-114: the targets of a split; the counter is a usize, its
   underflow is modelled as the overflow panic of a debug build *)
Fixpoint split_targets (rec : hstate -> nat -> header -> res hstate)
    (s : hstate) (ids : list nat) (h : header) (count : nat) : res hstate :=
  match ids with
  | [] => Ok s
  | i :: t =>
      let* s' := rec s i h in
      match count with O => Panic | S count' => split_targets rec s' t h count' end
  end.

(* src/chopper/header_graph.rs:93-124 the loop of match_remove_chain *)
Fixpoint walk_header (rec : hstate -> nat -> header -> res hstate)
    (s : hstate) (c : nat) (h : header) (nodes : list hnode) : res hstate :=
  match nodes with
  | [] => Ok s
  | HSink f :: rest =>
      let* (h', sk) := f h in
      let* dg' := unwrap_res (add_node (snd s) (DSink sk) c) in
      walk_header rec (fst s, dg') c h' rest
  | HMerge st _ :: rest =>
      let* sk := merge_data_sink st in
      let* dg' := add_node (snd s) (DSink sk) c in
      walk_header rec (fst s, dg') c h rest
  | HSplit ids count :: rest =>
      if count =? 0
      then Err (ECustom "HeaderGraph -- unprocessed header count must be at least 1")
      else
        let* s1 := split_targets rec s ids h count in
        let* dg' := add_node (snd s1) (DSplit ids) c in
        walk_header rec (fst s1, dg') c h rest
  | HGoto d :: rest =>
      let* dg' := add_node (snd s) (DMerge d) c in
      let* s1 := check_merge_header rec (fst s, dg') d h in
      walk_header rec s1 c h rest
  end.

(* src/chopper/header_graph.rs:86-126 match_remove_chain; [fuel] bounds the recursion *)
Fixpoint match_remove_chain (fuel : nat) (s : hstate) (c : nat) (h : header) : res hstate :=
  match fuel with
  | O => NoFuel
  | S f =>
      let* (nodes, hg') := swap_remove (fst s) c in
      walk_header (match_remove_chain f) (hg', snd s) c h nodes
  end.

(* src/chopper/header_graph.rs:62-78 process_header_re *)
Definition process_header_re (fuel : nat) (s : hstate) (c : nat) (h : header) : res hstate :=
  match nth_error (fst s) c with
  | None | Some [] => Panic                                       (* :68, :70 unwrap *)
  | Some (HMerge _ _ :: _) => check_merge_header (match_remove_chain fuel) s c h
  | Some (_ :: _) => match_remove_chain fuel s c h
  end.

(* src/chopper/header_graph.rs:55-57 the loop of process_header over header i, i+1, … *)
Fixpoint process_headers (fuel : nat) (s : hstate) (i : nat) (hs : list header) : res hstate :=
  match hs with
  | [] => Ok s
  | h :: t =>
      let* s' := process_header_re fuel s i h in
      process_headers fuel s' (S i) t
  end.

(** Enough recursion depth for any header graph (see C15). *)
Definition hfuel (hg : hgraph) : nat := 2 + length (concat hg).

(* src/chopper/header_graph.rs:52-60 process_header; data_graph.rs:36-42 DataGraph::new *)
Definition process_header (hg : hgraph) (hs : list header) : res dgraph :=
  let* s := process_headers (hfuel hg) (hg, repeat [] (length hg)) 0 hs in
  Ok (snd s).

(* src/driver/driver.rs:15-33 Driver::new *)
Definition driver_new (nsources : nat) (hg : hgraph) (hs : list header) : res dgraph :=
  if length hg <? nsources
  then Err (ECustom "Driver -- not enough header chains for sources.")
  else process_header hg hs.

(** Driver::new followed by drive: a run, or the failure of Driver::new. *)
Definition run_driver (F : nat) (srcs : list source) (hg : hgraph) (rng : ts_range)
    (hs : list header) : run * res unit :=
  match driver_new (length srcs) hg hs with
  | Ok g => drive F g srcs rng
  | e => (run0, fail_as e)
  end.

(* src/chopper_cli.rs:125-157 the graph built by setup_graph for [n] inputs: one Merge
   chain per input and a last chain with the MergeJoin and the output sink; for a single
   input just the output sink. *)
Definition cli_graph (n : nat) (out : header_sink) : res hgraph :=
  if 1 <? n then
    let* m := merge_join n in
    Ok (repeat [HGoto n] n ++ [[m; HSink out]])
  else Ok [[HSink out]].

(* src/chopper_cli.rs:110-165 setup_graph, then drive (chopper_cli.rs:25-32), given the
   opened sources with their headers *)
Definition chop (F : nat) (inputs : list (header * source)) (out : header_sink)
    (rng : ts_range) : run * res unit :=
  match cli_graph (length inputs) out with
  | Ok hg => run_driver F (map snd inputs) hg rng (map fst inputs)
  | e => (run0, fail_as e)
  end.

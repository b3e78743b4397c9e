(** Model of src/chopper/data_graph.rs, src/driver/source_row_buffer.rs and
    src/driver/driver.rs. *)
From Verif Require Export TypesModel.

(** ** The data graph *)

(* src/chopper/data_graph.rs:5-9  DataNode *)
Inductive dnode := DSink (k : sink) | DMerge (c : nat) | DSplit (cs : list nat).

(* src/chopper/data_graph.rs:11-17  DataChain, DataGraph *)
Notation dchain := (list dnode) (only parsing).
Notation dgraph := (list (list dnode)) (only parsing).

(** Observation: node [v_node] of chain [v_chain] was reached by an event.  For a
    DataSink node this is exactly one call of write_row/flush on that sink; for Merge
    and Split nodes it records that the traversal went through the node. *)
Record visit := V { v_chain : nat; v_node : nat; v_ev : event }.

(** Chronological log of all visits of a run. *)
Definition log := list visit.

(** The calls a node has received so far: the state of its sink. *)
Definition at_node (c n : nat) (v : visit) : bool :=
  (v_chain v =? c) && (v_node v =? n).
Definition events_at (lg : log) (c n : nat) : list event :=
  map v_ev (filter (at_node c n) lg).

(** Run [f] over a list, stopping at the first failure (the [for … ?] loops). *)
Fixpoint each {A St} (f : St -> A -> St * res unit) (xs : list A) (s : St) : St * res unit :=
  match xs with
  | [] => (s, Ok tt)
  | x :: t =>
      match f s x with
      | (s', Ok _) => each f t s'
      | (s', e) => (s', e)
      end
  end.

(* src/driver/driver.rs:85-116  the loop of process_row over the nodes of a chain from
   [n] on; [rec] is the recursive call.  :90 write_row, :92 no row left, :95-99 all but
   the last row recursively, the last one iteratively; :103-107 Merge; :108-113 Split. *)
Fixpoint row_walk (rec : log -> nat -> nat -> row -> log * res unit)
    (c : nat) (nodes : list dnode) (n : nat) (r : row) (lg : log) : log * res unit :=
  match nodes with
  | [] => (lg, Ok tt)
  | nd :: rest =>
      let lg1 := lg ++ [V c n (EvRow r)] in
      match nd with
      | DSink k =>
          match sk_write k (events_at lg c n) r with
          | Ok rows =>
              match rows with
              | [] => (lg1, Ok tt)
              | r0 :: _ =>
                  match each (fun l x => rec l c (S n) x) (removelast rows) lg1 with
                  | (lg2, Ok _) => row_walk rec c rest (S n) (last rows r0) lg2
                  | (lg2, e) => (lg2, e)
                  end
              end
          | e => (lg1, fail_as e)
          end
      | DMerge d =>
          match rec lg1 d 0 r with
          | (lg2, Ok _) => row_walk rec c rest (S n) r lg2
          | (lg2, e) => (lg2, e)
          end
      | DSplit ds =>
          match each (fun l d => rec l d 0 r) ds lg1 with
          | (lg2, Ok _) => row_walk rec c rest (S n) r lg2
          | (lg2, e) => (lg2, e)
          end
      end
  end.

(* src/driver/driver.rs:82-117  process_row(chain_id, node_id, row);
   a missing chain is the unwrap of data_graph.rs:53. [fuel] bounds the recursion. *)
Fixpoint process_row (fuel : nat) (g : dgraph) (lg : log) (c n : nat) (r : row)
  : log * res unit :=
  match fuel with
  | O => (lg, NoFuel)
  | S f =>
      match nth_error g c with
      | None => (lg, Panic)
      | Some chain => row_walk (process_row f g) c (skipn n chain) n r lg
      end
  end.

(* src/driver/driver.rs:121-138  the loop of flush *)
Fixpoint flush_walk (rec : log -> nat -> log * res unit)
    (c : nat) (nodes : list dnode) (n : nat) (lg : log) : log * res unit :=
  match nodes with
  | [] => (lg, Ok tt)
  | nd :: rest =>
      let lg1 := lg ++ [V c n EvFlush] in
      match nd with
      | DSink k =>
          match sk_flush k (events_at lg c n) with
          | Ok _ => flush_walk rec c rest (S n) lg1
          | e => (lg1, fail_as e)
          end
      | DMerge d =>
          match rec lg1 d with
          | (lg2, Ok _) => flush_walk rec c rest (S n) lg2
          | (lg2, e) => (lg2, e)
          end
      | DSplit ds =>
          match each rec ds lg1 with
          | (lg2, Ok _) => flush_walk rec c rest (S n) lg2
          | (lg2, e) => (lg2, e)
          end
      end
  end.

(* src/driver/driver.rs:119-140  flush(chain_id, 0): every call in the code passes
   node 0, so the model drops that argument. *)
Fixpoint flush (fuel : nat) (g : dgraph) (lg : log) (c : nat) : log * res unit :=
  match fuel with
  | O => (lg, NoFuel)
  | S f =>
      match nth_error g c with
      | None => (lg, Panic)
      | Some chain => flush_walk (flush f g) c chain 0 lg
      end
  end.

(** ** Sources *)

(* src/chopper/chopper.rs:11-14  trait Source, as seen by the driver: the outcomes of the
   successive next_row calls (a row or a failure); afterwards next_row answers Ok(None). *)
Definition source := list (res row).

Definition next_row (s : source) : res (option row * source) :=
  match s with
  | [] => Ok (None, [])
  | r :: s' => let* x := r in Ok (Some x, s')
  end.

(* src/driver/source_row_buffer.rs:60-65 *)
Inductive action := Stop | Write | Skip.

(* src/driver/source_row_buffer.rs:67-75  filter_data_range *)
Definition filter_data_range (rng : ts_range) (t : nanos) : action :=
  let stop := match tr_end rng with Some e => (e <=? t)%N | None => false end in
  if stop then Stop
  else
    let write := match tr_begin rng with None => true | Some s => (s <=? t)%N end in
    if write then Write else Skip.

(* src/driver/source_row_buffer.rs:77-96  match_next_row *)
Fixpoint match_next_row (rng : ts_range) (s : source) : res (option row * source) :=
  match s with
  | [] => Ok (None, [])
  | x :: s' =>
      let* r := x in
      match filter_data_range rng (ts r) with
      | Stop => Ok (None, s')
      | Write => Ok (Some r, s')
      | Skip => match_next_row rng s'
      end
  end.

(* src/driver/source_row_buffer.rs:5-10  SourceRowBuffer *)
Record buf := { b_src : source; b_chain : nat; b_ts : nanos; b_row : option row }.

(* src/driver/source_row_buffer.rs:13-29  SourceRowBuffer::new *)
Definition new_buf (rng : ts_range) (s : source) (chain : nat) : res buf :=
  let* (o, s') := match_next_row rng s in
  Ok {| b_src := s'; b_chain := chain;
        b_ts := match o with Some r => ts r | None => 0%N end;
        b_row := o |}.

(* src/driver/source_row_buffer.rs:43-57  has_next, update_record *)
Definition has_next (rng : ts_range) (bf : buf) : res (bool * buf) :=
  let* (o, s') := match_next_row rng (b_src bf) in
  match o with
  | Some r => Ok (true, {| b_src := s'; b_chain := b_chain bf; b_ts := ts r; b_row := Some r |})
  | None => Ok (false, {| b_src := s'; b_chain := b_chain bf;
                          b_ts := b_ts bf; b_row := b_row bf |})
  end.

(* src/driver/driver.rs:63-70  get_row_buffers: sources are popped from the end of the
   vector and numbered 0, 1, …; [popped] is the reversed vector. *)
Fixpoint make_bufs (rng : ts_range) (popped : list source) (i : nat) : res (list buf) :=
  match popped with
  | [] => Ok []
  | s :: t =>
      let* bf := new_buf rng s i in
      let* bs := make_bufs rng t (S i) in
      Ok (bf :: bs)
  end.
Definition get_row_buffers (rng : ts_range) (srcs : list source) : res (list buf) :=
  make_bufs rng (rev srcs) 0.

(* src/driver/driver.rs:73-80  get_next_buffer_index: Iterator::min_by keeps the first of
   several minimal elements. *)
Fixpoint min_index (bs : list buf) (i : nat) (best : nat) (best_ts : nanos) : nat :=
  match bs with
  | [] => best
  | bf :: t =>
      if (b_ts bf <? best_ts)%N then min_index t (S i) i (b_ts bf)
      else min_index t (S i) best best_ts
  end.
Definition get_next_buffer_index (bs : list buf) : res nat :=
  match bs with
  | [] => Panic
  | bf :: t => Ok (min_index t 1 0 (b_ts bf))
  end.

(** ** drive *)

(** What the driver hands to the graph: process_row(chain, 0, row) or flush(chain, 0). *)
Inductive devent := DRow (c : nat) (r : row) | DFlush (c : nat).

(** The effect of one such call on the graph. *)
Definition apply_ev (F : nat) (g : dgraph) (lg : log) (e : devent) : log * res unit :=
  match e with
  | DRow c r => process_row F g lg c 0 r
  | DFlush c => flush F g lg c
  end.

(** State of a run: what was handed over so far, and the graph's log. *)
Record run := { r_devs : list devent; r_log : log }.

Definition hand (F : nat) (g : dgraph) (s : run) (e : devent) : run * res unit :=
  let (lg, o) := apply_ev F g (r_log s) e in
  ({| r_devs := r_devs s ++ [e]; r_log := lg |}, o).

(* src/driver/driver.rs:40-59  the main loop; each iteration takes one row out of a
   buffer, so [fuel] = 1 + number of rows still in the sources suffices. *)
Fixpoint drive_loop (F : nat) (g : dgraph) (rng : ts_range) (fuel : nat)
    (bs : list buf) (s : run) : run * res unit :=
  match bs with
  | [] => (s, Ok tt)
  | _ =>
      match fuel with
      | O => (s, NoFuel)
      | S f =>
          match get_next_buffer_index bs with
          | Ok i =>
              match nth_error bs i with
              | None => (s, Panic)
              | Some bf =>
                  match b_row bf with
                  | None => (s, Panic)                       (* driver.rs:45 unwrap *)
                  | Some r =>
                      match hand F g s (DRow (b_chain bf) r) with (* :47 *)
                      | (s1, Ok _) =>
                          match has_next rng bf with              (* :51 *)
                          | Ok (true, bf') =>
                              match list_set i bf' bs with
                              | Ok bs' => drive_loop F g rng f bs' s1
                              | e => (s1, fail_as e)
                              end
                          | Ok (false, _) =>
                              match hand F g s1 (DFlush (b_chain bf)) with (* :52 *)
                              | (s2, Ok _) =>
                                  match list_remove i bs with            (* :53 *)
                                  | Ok bs' => drive_loop F g rng f bs' s2
                                  | e => (s2, fail_as e)
                                  end
                              | (s2, e) => (s2, e)
                              end
                          | e => (s1, fail_as e)
                          end
                      | (s1, e) => (s1, e)
                      end
                  end
              end
          | e => (s, fail_as e)
          end
      end
  end.

Definition loop_fuel (bs : list buf) : nat :=
  fold_right (fun bf acc => S (length (b_src bf)) + acc) 0 bs.

Definition run0 : run := {| r_devs := []; r_log := [] |}.

(* src/driver/driver.rs:35-61  drive *)
Definition drive (F : nat) (g : dgraph) (srcs : list source) (rng : ts_range)
  : run * res unit :=
  match get_row_buffers rng srcs with
  | Ok bs => drive_loop F g rng (loop_fuel bs) bs run0
  | e => (run0, fail_as e)
  end.

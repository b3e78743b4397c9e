(** Specification vocabulary for the driver (C01-C10, C14, C15).  Refers to the data
    types of the model (rows, events, graphs, logs), not to its functions. *)
From Coq Require Export Sorting.Sorted.
From Verif Require Export DriverModel.

(** *** Sources *)

(** The rows a source yields before its first failure (if any). *)
Fixpoint rows_before_failure (s : source) : list row :=
  match s with
  | Ok r :: t => r :: rows_before_failure t
  | _ => []
  end.

(** [t < end] and [begin <= t], absent bounds being no restriction. *)
Definition before_end (rng : ts_range) (t : nanos) : bool :=
  match tr_end rng with Some e => (t <? e)%N | None => true end.
Definition from_begin (rng : ts_range) (t : nanos) : bool :=
  match tr_begin rng with Some s => (s <=? t)%N | None => true end.

(** The rows up to (not including) the first one at or after the end of the range,
    minus those before its beginning. *)
Fixpoint until_end (rng : ts_range) (rs : list row) : list row :=
  match rs with
  | [] => []
  | r :: t => if before_end rng (ts r) then r :: until_end rng t else []
  end.
Definition selected (rng : ts_range) (s : source) : list row :=
  filter (fun r => from_begin rng (ts r)) (until_end rng (rows_before_failure s)).

(** A source that can be read to its end, or to the end of the range, without failure. *)
Fixpoint readable (rng : ts_range) (s : source) : Prop :=
  match s with
  | [] => True
  | Ok r :: t => before_end rng (ts r) = false \/ readable rng t
  | _ => False
  end.

Definition ts_le (x y : row) : Prop := (ts x <= ts y)%N.
Definition time_ordered (rs : list row) : Prop := Sorted ts_le rs.

(** *** What the driver handed over *)

Fixpoint rows_handed (ds : list devent) : list row :=
  match ds with
  | [] => []
  | DRow _ r :: t => r :: rows_handed t
  | DFlush _ :: t => rows_handed t
  end.

Fixpoint rows_to (c : nat) (ds : list devent) : list row :=
  match ds with
  | [] => []
  | DRow d r :: t => if d =? c then r :: rows_to c t else rows_to c t
  | DFlush _ :: t => rows_to c t
  end.

(** *** Graphs *)

Definition targets (nd : dnode) : list nat :=
  match nd with DSink _ => [] | DMerge c => [c] | DSplit cs => cs end.

Definition edge (g : dgraph) (c d : nat) : Prop :=
  exists chain nd, nth_error g c = Some chain /\ In nd chain /\ In d (targets nd).

(** No row can come back to a chain it went through. *)
Definition acyclic (g : dgraph) : Prop :=
  exists rank : nat -> nat, forall c d, edge g c d -> rank d < rank c.

(** Chain [d] can be reached from chain [c]. *)
Inductive reach (g : dgraph) : nat -> nat -> Prop :=
| reach_refl c : reach g c c
| reach_step c d e : edge g c d -> reach g d e -> reach g c e.

Definition node_at (g : dgraph) (c n : nat) : option dnode :=
  match nth_error g c with Some chain => nth_error chain n | None => None end.

(** *** Logs *)

(** Rows among the events of a node. *)
Fixpoint ev_rows (evs : list event) : list row :=
  match evs with
  | [] => []
  | EvRow r :: t => r :: ev_rows t
  | EvFlush :: t => ev_rows t
  end.
Definition rows_at (lg : log) (c n : nat) : list row := ev_rows (events_at lg c n).

(** Everything a sink emits in answer to the calls [evs], having received [past] before. *)
Fixpoint emitted (k : sink) (past : list event) (evs : list event) : list row :=
  match evs with
  | [] => []
  | EvRow r :: t =>
      (match sk_write k past r with Ok rows => rows | _ => [] end)
      ++ emitted k (past ++ [EvRow r]) t
  | EvFlush :: t => emitted k (past ++ [EvFlush]) t
  end.

Definition prefix {A} (x y : list A) : Prop := exists z, y = x ++ z.

(** [lg] starts by delivering [r] to node [n] of chain [c], if there is such a node. *)
Definition starts_at (g : dgraph) (c n : nat) (r : row) (lg : log) : Prop :=
  node_at g c n <> None -> exists t, lg = V c n (EvRow r) :: t.

(** The log [lg] is exactly what the delivery of [r] to node [n] of chain [c] caused: it
    starts with that delivery, which happens once; nothing at all if there is no such node. *)
Definition delivered_once (g : dgraph) (c n : nat) (r : row) (lg : log) : Prop :=
  (node_at g c n = None -> lg = []) /\
  (node_at g c n <> None -> exists t, lg = V c n (EvRow r) :: t /\
      forall v, In v t -> ~ (v_chain v = c /\ v_node v = n)).

(** [rest], what the log holds after [r] reached node [n] of chain [c], delivers [r] to
    the target chains [ds] one after the other, once each, without coming back to chain
    [c], and then to the next node of chain [c]. *)
Definition tees (g : dgraph) (c n : nat) (r : row) (ds : list nat) (rest : log) : Prop :=
  exists segs tl,
    rest = concat segs ++ tl /\
    Forall2 (fun d seg => delivered_once g d 0 r seg) ds segs /\
    (forall seg v, In seg segs -> In v seg -> v_chain v <> c) /\
    starts_at g c (S n) r tl.

(** *** Repairs: [g'] behaves like [g] wherever [g]'s sinks succeed; [s'] yields what [s]
    yields up to [s]'s first failure. *)
Definition sink_repair (k k' : sink) : Prop :=
  (forall h r x, sk_write k h r = Ok x -> sk_write k' h r = Ok x) /\
  (forall h, sk_flush k h = Ok tt -> sk_flush k' h = Ok tt).
Inductive node_repair : dnode -> dnode -> Prop :=
| nr_sink k k' : sink_repair k k' -> node_repair (DSink k) (DSink k')
| nr_merge c : node_repair (DMerge c) (DMerge c)
| nr_split cs : node_repair (DSplit cs) (DSplit cs).
Definition graph_repair (g g' : dgraph) : Prop := Forall2 (Forall2 node_repair) g g'.
Definition source_repair (s s' : source) : Prop :=
  s = s' \/
  exists p x t t', s = p ++ x :: t /\ s' = p ++ t' /\
    (forall y, In y p -> is_ok y = true) /\ is_ok x = false.

(** *** Causes of failure *)

(** The first failure of a source. *)
Fixpoint first_failure (s : source) : option (res row) :=
  match s with
  | [] => None
  | Ok _ :: t => first_failure t
  | x :: _ => Some x
  end.

(** The outcome of one call on a sink that received [past] before. *)
Definition sink_call (k : sink) (past : list event) (e : event) : res unit :=
  match e with
  | EvRow r => match sk_write k past r with Ok _ => Ok tt | x => fail_as x end
  | EvFlush => sk_flush k past
  end.

(** The last thing in the log is a sink call, and its outcome was [o]. *)
Definition last_call_was (g : dgraph) (lg : log) (o : res unit) : Prop :=
  exists pre c n e k, lg = pre ++ [V c n e] /\ node_at g c n = Some (DSink k) /\
    sink_call k (events_at pre c n) e = o.

(** Some chain number used by the sources or by a node is not a chain of the graph. *)
Definition dangling (g : dgraph) (n : nat) : Prop :=
  length g < n \/ exists c d, edge g c d /\ length g <= d.

(** Specification of the routes rows take through a data graph (C98-C100). *)
From Verif Require Export DriverSpec HeaderSpec.

(** [acts c n r]: what the sink at node [n] of chain [c] makes of row [r], whatever it was
    called with before.  Only sinks that have a next node matter. *)
Definition row_by_row (g : dgraph) (acts : nat -> nat -> row -> list row) : Prop :=
  forall c n k past r rows, node_at g c n = Some (DSink k) -> node_at g c (S n) <> None ->
    sk_write k past r = Ok rows -> rows = acts c n r.

(** What a sink with these acts passes on to the next node when it is called with [e]. *)
Definition passes_on (acts : row -> list row) (e : event) : list event :=
  match e with EvRow r => map EvRow (acts r) | EvFlush => [EvFlush] end.

(** [route c n e out]: when node [n] of chain [c] is called with [e] (a row or a flush),
    node [m] of chain [d] is called with [out], in that order. *)
Inductive route (g : dgraph) (acts : nat -> nat -> row -> list row) (d m : nat)
  : nat -> nat -> event -> list event -> Prop :=
| rt_here e : route g acts d m d m e [e]
| rt_none c n e : ~ (c = d /\ n = m) -> node_at g c n = None -> route g acts d m c n e []
| rt_last c n e k :
    ~ (c = d /\ n = m) -> node_at g c n = Some (DSink k) -> node_at g c (S n) = None ->
    route g acts d m c n e []
| rt_sink c n e k outs :
    ~ (c = d /\ n = m) -> node_at g c n = Some (DSink k) -> node_at g c (S n) <> None ->
    Forall2 (route g acts d m c (S n)) (passes_on (acts c n) e) outs ->
    route g acts d m c n e (concat outs)
| rt_tee c n e nd outs rest :
    ~ (c = d /\ n = m) -> node_at g c n = Some nd -> (forall k, nd <> DSink k) ->
    Forall2 (fun t => route g acts d m t 0 e) (targets nd) outs ->
    route g acts d m c (S n) e rest ->
    route g acts d m c n e (concat outs ++ rest).

(** What the driver does, each with the number of the chain. *)
Definition handing (d : devent) : nat * event :=
  match d with DRow c r => (c, EvRow r) | DFlush c => (c, EvFlush) end.

(** [l] (source numbers and events) interleaves what the sources have to say: of each source
    its rows in range, in order, and then the end of the source. *)
Definition interleaves (rng : ts_range) (srcs : list source) (l : list (nat * event)) : Prop :=
  (forall i src, nth_error srcs i = Some src ->
     map snd (filter (fun p => fst p =? i) l) = map EvRow (selected rng src) ++ [EvFlush]) /\
  (forall p, In p l -> fst p < length srcs).
(** … by time, the later source first where times are equal. *)
Definition by_time (l : list (nat * event)) : Prop :=
  forall a i r m j r' z, l = a ++ (i, EvRow r) :: m ++ (j, EvRow r') :: z ->
    (ts r < ts r')%N \/ (ts r = ts r' /\ j <= i).

(** *** Filtering and merging, splitting *)

(** A sink that answers every row with at most one row, whatever it was called with before. *)
Definition acts_as (k : sink) (f : row -> option row) : Prop :=
  forall past r rows, sk_write k past r = Ok rows ->
    rows = match f r with Some r' => [r'] | None => [] end.

(** [steps h fs h' ks acts]: the header sinks [fs], each given the header the one before returned,
    accept header [h] and return [h']; their sinks [ks] act on rows as [acts]. *)
Inductive steps : header -> list header_sink -> header -> list sink -> list (row -> option row) -> Prop :=
| steps_nil h : steps h [] h [] []
| steps_cons h f h1 k a fs h' ks acts :
    f h = Ok (h1, k) -> acts_as k a -> steps h1 fs h' ks acts ->
    steps h (f :: fs) h' (k :: ks) (a :: acts).

(** One row through several steps. *)
Fixpoint through (acts : list (row -> option row)) (r : row) : option row :=
  match acts with
  | [] => Some r
  | a :: t => match a r with Some r' => through t r' | None => None end
  end.

Definition kept (f : row -> option row) (rs : list row) : list row :=
  flat_map (fun r => match f r with Some r' => [r'] | None => [] end) rs.
(** The same of rows and flushes. *)
Definition kept_ev (f : row -> option row) (e : event) : list event :=
  match e with
  | EvRow r => match f r with Some r' => [EvRow r'] | None => [] end
  | EvFlush => [EvFlush]
  end.

(* examples/filter_and_merge.rs:45-60: one chain per input, its header sinks followed by a Merge
   node; a last chain with the MergeJoin, further header sinks and the output.  The chains
   of the command line (src/chopper_cli.rs:125-157) are the case of no header sinks. *)
Definition fan_in (chains : list (list header_sink)) (post : list header_sink) (out : header_sink) : hgraph :=
  map (fun fs => map HSink fs ++ [HGoto (length chains)]) chains
  ++ [HMerge None (length chains) :: map HSink post ++ [HSink out]].

(* examples/split.rs:35-52: one input whose chain ends in a Split to one chain per output. *)
Definition fan_out (pre : list header_sink) (outs : list (list header_sink * header_sink)) : hgraph :=
  (map HSink pre ++ [split_node (seq 1 (length outs))])
  :: map (fun o => map HSink (fst o) ++ [HSink (snd o)]) outs.

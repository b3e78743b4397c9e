(** Specification of runs that must succeed (C113). *)
From Verif Require Export DriverSpec.

(** [may_reach c n r]: row [r] can arrive at node [n] of chain [c].  The last source feeds chain 0, the
    last but one chain 1, … (see C05); what a sink makes of a row goes to the node behind it; a merge or split
    passes a row on to its target chains and to the node behind it. *)
Inductive may_reach (g : dgraph) (srcs : list source) (rng : ts_range) : nat -> nat -> row -> Prop :=
| mr_source i src r : nth_error srcs i = Some src -> In r (selected rng src) ->
    may_reach g srcs rng (length srcs - 1 - i) 0 r
| mr_sink c n k past r rows r' : may_reach g srcs rng c n r -> node_at g c n = Some (DSink k) ->
    sk_write k past r = Ok rows -> In r' rows -> may_reach g srcs rng c (S n) r'
| mr_target c n nd d r : may_reach g srcs rng c n r -> node_at g c n = Some nd -> In d (targets nd) ->
    may_reach g srcs rng d 0 r
| mr_next c n nd r : may_reach g srcs rng c n r -> node_at g c n = Some nd -> (forall k, nd <> DSink k) ->
    may_reach g srcs rng c (S n) r.

(** Every sink takes every row that can arrive there, and can be flushed, whatever it was called with before. *)
Definition sinks_content (g : dgraph) (srcs : list source) (rng : ts_range) : Prop :=
  (forall c n k past r, node_at g c n = Some (DSink k) -> may_reach g srcs rng c n r ->
     exists rows, sk_write k past r = Ok rows) /\
  (forall c n k past, node_at g c n = Some (DSink k) -> sk_flush k past = Ok tt).

(** Specification vocabulary for header processing (C05, C11-C15). *)
From Verif Require Export HeaderModel DriverSpec.

(** [built h nodes dnodes sends]: the data nodes [dnodes] are what the header nodes [nodes]
    of one chain give when header [h] enters the chain: one data node per header node, each
    header sink being given the header as modified by the sinks before it; [sends] are the
    headers sent on to other chains by Merge nodes. *)
Inductive built : header -> list hnode -> list dnode -> list (nat * header) -> Prop :=
| built_nil h : built h [] [] []
| built_sink h h' f k ns ds sends :
    f h = Ok (h', k) -> built h' ns ds sends -> built h (HSink f :: ns) (DSink k :: ds) sends
| built_merge h st n ns ds sends :
    built h ns ds sends -> built h (HMerge st n :: ns) (DSink pass_sink :: ds) sends
| built_split h ids n ns ds sends :
    built h ns ds sends -> built h (HSplit ids n :: ns) (DSplit ids :: ds) sends
| built_goto h d ns ds sends :
    built h ns ds sends -> built h (HGoto d :: ns) (DMerge d :: ds) ((d, h) :: sends).

(** Header graphs as built from MergeJoin::new and Split::new. *)
Definition fresh_node (nd : hnode) : Prop :=
  match nd with
  | HMerge st n => st = None /\ 1 <= n
  | HSplit ids n => n = length ids
  | _ => True
  end.
Definition fresh (hg : hgraph) : Prop := Forall (Forall fresh_node) hg.

(** No split node leads to chain [d]. *)
Definition not_split_target (hg : hgraph) (d : nat) : Prop :=
  forall chain ids n, In chain hg -> In (HSplit ids n) chain -> ~ In d ids.

(** The number of Merge nodes in a data graph that lead to chain [d]. *)
Definition merge_nodes (g : dgraph) (d : nat) : nat :=
  length (filter (fun nd => match nd with DMerge c => c =? d | _ => false end) (concat g)).

(** Headers that reached chain [d], if it starts with a MergeJoin: one per Merge node
    leading there, and the source header if [d] is a source chain. *)
Definition arrivals (g : dgraph) (nheaders : nat) (d : nat) : nat :=
  merge_nodes g d + (if d <? nheaders then 1 else 0).

(** Header sinks return. *)
Definition header_sinks_return (hg : hgraph) : Prop :=
  forall chain f h, In chain hg -> In (HSink f) chain -> f h <> NoFuel.

(** A data node of the same kind and with the same targets as a header node. *)
Definition mirrors (hn : hnode) (dn : dnode) : Prop :=
  match hn, dn with
  | HSink _, DSink _ => True
  | HMerge _ _, DSink k => k = pass_sink
  | HSplit ids _, DSplit ids' => ids' = ids
  | HGoto d, DMerge d' => d' = d
  | _, _ => False
  end.

(** The command line's graph (C14): chain and node number of the output sink for [n] inputs. *)
Definition out_chain (n : nat) : nat := if 1 <? n then n else 0.
Definition out_node (n : nat) : nat := if 1 <? n then 1 else 0.

(** The call that a row or a flush handed to a source chain is for the output sink. *)
Definition ev_of (e : devent) : event := match e with DRow _ r => EvRow r | DFlush _ => EvFlush end.

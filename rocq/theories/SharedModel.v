(** Model of several sinks on one standard output, as in examples/split.rs: every CSVSink has a
    BufWriter of its own over io::stdout() (src/write/csv_sink.rs:17-34).  Standard output is
    taken to be reliable here; its own line buffer holds bytes back but does not reorder them. *)
From Verif Require Export WriterModel.

(** What a sink does to its BufWriter. *)
Inductive wop := Piece (bs : bytes) | Flushed.
Record shared := { sh_bufs : nat -> bytes; sh_out : bytes }.
Definition reliable (got : bytes) : outer := {| o_got := got; o_plan := []; o_end := None |}.

Section Capacity.
Variable cap : nat.
(* one call on the BufWriter of output [i] *)
Definition shared_op (s : shared) (x : nat * wop) : shared :=
  let (i, op) := x in
  let w := {| bw_buf := sh_bufs s i; bw_out := reliable (sh_out s) |} in
  let w' := snd (match op with Piece bs => bw_write_all cap bs w | Flushed => bw_flush w end) in
  {| sh_bufs := fun j => if j =? i then bw_buf w' else sh_bufs s j; sh_out := o_got (bw_out w') |}.
(* what standard output holds in the end: the calls in order, and then every BufWriter dropped *)
Definition shared_stdout (n : nat) (ops : list (nat * wop)) : bytes :=
  sh_out (fold_left shared_op (ops ++ map (fun i => (i, Flushed)) (seq 0 n)) {| sh_bufs := fun _ => []; sh_out := [] |}).
End Capacity.

(** ** The calls of a CSVSink: one write_str per literal part and argument of write! *)
(* src/write/csv_sink.rs:36-54 write_csv_header *)
Fixpoint name_pieces (first : bool) (names : list bytes) : list bytes :=
  match names with
  | [] => []
  | n :: t => (if first then [n] else [b ","; n]) ++ name_pieces false t
  end.
Definition header_pieces (cfg : csv_output) (h : header) : list bytes :=
  (if co_print_time cfg then [co_time_name cfg; b ","] else []) ++ name_pieces true (h_names h) ++ [[byte_of 10]].

Section Sink.
Variables (show_f64 show_f32 : N -> bytes).
(* src/write/csv_sink.rs:95-130 the values *)
Fixpoint value_pieces (d : bytes) (first : bool) (vs : list fvalue) : list bytes * bool :=
  match vs with
  | [] => ([], true)
  | v :: t =>
      let sep := if first then [] else [d] in
      match csv_value show_f64 show_f32 v with
      | Ok x => let (w, o) := value_pieces d false t in (sep ++ [x] ++ w, o)
      | _ => (sep, false)
      end
  end.
(* src/write/csv_sink.rs:65-132 write_row *)
Definition row_pieces (cfg : csv_output) (r : row) : list bytes :=
  match (if co_print_time cfg then csv_time cfg (ts r) else Ok []) with
  | Ok time =>
      let (w, o) := value_pieces (co_delimiter cfg) (negb (co_print_time cfg)) (vals r) in
      (if co_print_time cfg then [time] else []) ++ w ++ (if o then [[byte_of 10]] else [])
  | _ => []
  end.
Definition event_ops (cfg : csv_output) (i : nat) (e : event) : list (nat * wop) :=
  match e with
  | EvRow r => map (fun p => (i, Piece p)) (row_pieces cfg r)
  | EvFlush => [(i, Flushed)]
  end.
(* the calls of a run: [sink_at c n] is the output at node [n] of chain [c] and its settings *)
Definition log_ops (sink_at : nat -> nat -> option (nat * csv_output)) (lg : log) : list (nat * wop) :=
  flat_map (fun v => match sink_at (v_chain v) (v_node v) with
                     | Some (i, cfg) => event_ops cfg i (v_ev v)
                     | None => []
                     end) lg.
(* headers are written while the graph is built (src/write/csv_sink.rs:57-62), output after output *)
Definition header_ops (i : nat) (cfg : csv_output) (h : header) : list (nat * wop) :=
  map (fun p => (i, Piece p)) (header_pieces cfg h).
End Sink.

(* examples/split.rs:35-52: where the outputs of the split are, [outs] being the header sinks
   before each output and its settings *)
Definition split_sink_at (outs : list (list header_sink * csv_output)) (c m : nat) : option (nat * csv_output) :=
  match c with
  | O => None
  | S j => match nth_error outs j with
           | Some o => if m =? length (fst o) then Some (j, snd o) else None
           | None => None
           end
  end.
(* all calls of a run of the split: the headers, the log *)
Definition split_ops (show_f64 show_f32 : N -> bytes) (outs : list (list header_sink * csv_output)) (hs : list header) (lg : log)
  : list (nat * wop) :=
  concat (map (fun x => header_ops (fst x) (snd (fst (snd x))) (snd (snd x))) (combine (seq 0 (length outs)) (combine outs hs)))
  ++ log_ops show_f64 show_f32 (split_sink_at outs) lg.

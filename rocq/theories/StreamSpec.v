(** Vocabulary for C108: sources of which only a beginning has been seen. *)
From Verif Require Export DriverSpec.

(** The sources that have delivered the rows [ps] so far, and will go on with [rests]: more
    rows, a failure, or the end. *)
Definition going_on (ps : list (list row)) (rests : list source) : list source :=
  map (fun pr => map Ok (fst pr) ++ snd pr) (combine ps rests).

(** The row is inside the time range. *)
Definition in_range (rng : ts_range) (r : row) : bool := from_begin rng (ts r) && before_end rng (ts r).

(** The rows of the range that are before [T]. *)
Definition earlier (rng : ts_range) (T : nanos) (p : list row) : list row :=
  filter (fun r => in_range rng r && (ts r <? T)%N) p.

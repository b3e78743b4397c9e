(** Model of the writers behind the sinks: std::io::BufWriter over a File or standard output
    (src/write/csv_sink.rs:11-34, src/write/dc_sink.rs:12-35), which may take less than it is
    offered and may fail; and of the program with such writers. *)
From Verif Require Export ProgramModel.

(** ** The writer underneath

    An arbitrary [std::io::Write]: what it has received, and a plan that says how each coming
    call behaves: take at most [k] bytes, or fail.  When the plan is used up it takes all, or
    fails for good.  ErrorKind::Interrupted, which write_all retries, is not modelled. *)
Inductive wstep := Accept (k : nat) | Refuse (e : ioerr).
Record outer := { o_got : bytes; o_plan : list wstep; o_end : option ioerr }.
(* [Write::write]: how many bytes were taken *)
Definition outer_write (bs : bytes) (o : outer) : res nat * outer :=
  match o_plan o with
  | Accept k :: p => (Ok (Nat.min k (length bs)), {| o_got := o_got o ++ firstn k bs; o_plan := p; o_end := o_end o |})
  | Refuse e :: p => (Err (EIo e), {| o_got := o_got o; o_plan := p; o_end := o_end o |})
  | [] => match o_end o with
          | None => (Ok (length bs), {| o_got := o_got o ++ bs; o_plan := []; o_end := None |})
          | Some e => (Err (EIo e), o)
          end
  end.
(* [Write::flush]: nothing to do for a File; a plan step says whether it fails *)
Definition outer_flush (o : outer) : res unit * outer :=
  match o_plan o with
  | Accept _ :: p => (Ok tt, {| o_got := o_got o; o_plan := p; o_end := o_end o |})
  | Refuse e :: p => (Err (EIo e), {| o_got := o_got o; o_plan := p; o_end := o_end o |})
  | [] => (match o_end o with None => Ok tt | Some e => Err (EIo e) end, o)
  end.

(** ** std::io::BufWriter (not in /repo) *)
Record bwriter := { bw_buf : bytes; bw_out : outer }.
Definition WriteZero : error := EIo (OtherIo 23).

Section Buffered.
(** the capacity; BufWriter::new gives 8 KiB *)
Variable cap : nat.

(* BufWriter::flush_buf: write until the buffer is empty; what was taken leaves the buffer
   even if a later call fails.  One step of fuel per byte: every round takes at least one. *)
Fixpoint pour (fuel : nat) (bs : bytes) (o : outer) : res unit * bwriter :=
  match bs, fuel with
  | [], _ => (Ok tt, {| bw_buf := []; bw_out := o |})
  | _, O => (NoFuel, {| bw_buf := bs; bw_out := o |})
  | _, S f =>
      match outer_write bs o with
      | (Ok n, o') => if n =? 0 then (Err WriteZero, {| bw_buf := bs; bw_out := o' |}) else pour f (skipn n bs) o'
      | (e, o') => (fail_as e, {| bw_buf := bs; bw_out := o' |})
      end
  end.
Definition flush_buf (w : bwriter) : res unit * bwriter := pour (length (bw_buf w)) (bw_buf w) (bw_out w).

(* BufWriter::write *)
Definition bw_write (bs : bytes) (w : bwriter) : res nat * bwriter :=
  let (r, w) := if cap <? length (bw_buf w) + length bs then flush_buf w else (Ok tt, w) in
  match r with
  | Ok _ =>
      if cap <=? length bs
      then let (n, o') := outer_write bs (bw_out w) in (n, {| bw_buf := bw_buf w; bw_out := o' |})
      else (Ok (length bs), {| bw_buf := bw_buf w ++ bs; bw_out := bw_out w |})
  | e => (fail_as e, w)
  end.
(* Write::write_all, the default loop *)
Fixpoint write_loop (fuel : nat) (bs : bytes) (w : bwriter) : res unit * bwriter :=
  match bs, fuel with
  | [], _ => (Ok tt, w)
  | _, O => (NoFuel, w)
  | _, S f =>
      match bw_write bs w with
      | (Ok n, w') => if n =? 0 then (Err WriteZero, w') else write_loop f (skipn n bs) w'
      | (e, w') => (fail_as e, w')
      end
  end.
Definition bw_write_all (bs : bytes) (w : bwriter) : res unit * bwriter := write_loop (length bs) bs w.
(* BufWriter::flush *)
Definition bw_flush (w : bwriter) : res unit * bwriter :=
  match flush_buf w with
  | (Ok _, w') => let (r, o') := outer_flush (bw_out w') in (r, {| bw_buf := bw_buf w'; bw_out := o' |})
  | (e, w') => (e, w')
  end.
(* impl Drop for BufWriter: a last attempt, errors ignored; what the writer below ends up with *)
Definition bw_drop (w : bwriter) : bytes := o_got (bw_out (snd (flush_buf w))).
Definition bw_new (o : outer) : bwriter := {| bw_buf := []; bw_out := o |}.

(* a row or header is written by several calls of write_all, up to the first failure *)
Fixpoint write_pieces (ps : list bytes) (w : bwriter) : res unit * bwriter :=
  match ps with
  | [] => (Ok tt, w)
  | p :: t => match bw_write_all p w with
              | (Ok _, w') => write_pieces t w'
              | (e, w') => (e, w')
              end
  end.
End Buffered.

(** ** The sinks over such a writer *)

(** What a sink puts out for the header and for a row (the bytes before a failure, if it is
    one of the values), and the data sink's part in that: CsvModel and DcModel. *)
Record printer := { p_header : bytes * res unit; p_row : row -> bytes * res unit }.
Section Sinks.
Variables (show_f64 show_f32 : N -> bytes).
(* src/write/csv_sink.rs:57-137, src/write/dc_sink.rs:128-190 *)
Definition kind_printer (k : output_kind) (h : header) : printer :=
  match k with
  | OutCsv _ cfg => {| p_header := (csv_header_bytes cfg h, Ok tt); p_row := csv_write_row show_f64 show_f32 cfg |}
  | OutDc _ => {| p_header := (fst (dc_process_header h), let* _ := snd (dc_process_header h) in Ok tt);
                  p_row := match snd (dc_process_header h) with Ok n => dc_write_row n | _ => fun _ => ([], Ok tt) end |}
  end.

Variables (cap : nat) (o : outer).
(** how the bytes of the header ([None]) or of a row are cut into calls of write_all *)
Variable cut : option row -> bytes -> list bytes.

(* one output: write_all calls, then the failure of the value, if any; a failing write comes first *)
Definition put (what : option row) (x : bytes * res unit) (w : bwriter) : res unit * bwriter :=
  match write_pieces cap (cut what (fst x)) w with
  | (Ok _, w') => (snd x, w')
  | (e, w') => (e, w')
  end.
Definition put_event (p : printer) (ev : event) (w : bwriter) : res unit * bwriter :=
  match ev with
  | EvRow r => put (Some r) (p_row p r) w
  | EvFlush => bw_flush w
  end.
(** The writer after the header and the calls of the data sink so far. *)
Definition after_header (p : printer) : res unit * bwriter := put None (p_header p) (bw_new o).
Fixpoint after_events (p : printer) (evs : list event) (w : bwriter) : bwriter :=
  match evs with
  | [] => w
  | ev :: t => after_events p t (snd (put_event p ev w))
  end.
Definition io_sink (p : printer) : sink :=
  {| sk_write := fun past r => let* _ := fst (put_event p (EvRow r) (after_events p past (snd (after_header p)))) in Ok [r];
     sk_flush := fun past => fst (put_event p EvFlush (after_events p past (snd (after_header p)))) |}.
Definition io_header_sink (k : output_kind) : header_sink := fun h =>
  let* _ := fst (after_header (kind_printer k h)) in Ok (h, io_sink (kind_printer k h)).
(** What has arrived when the sink is gone. *)
Definition received (p : printer) (evs : list event) : bytes := bw_drop (after_events p evs (snd (after_header p))).
End Sinks.

(** ** The program *)
Section Program.
Context (prof : profile) (ch : chrono) (lower : bytes -> bytes) (parse_f64_ok : text -> bool).
Variable split : byte -> stream -> list (res (list bytes)).
Variables (ds : decoders) (inflate bunzip : inner -> inner) (show_f64 show_f32 : N -> bytes).
Variables (transports : option (list transport)) (factories : option (list (factory (header * source))))
          (zones : option (bytes -> option (zone ch))) (parse_zone : bytes -> option (zone ch)).
Variable create : bytes -> res unit.
Variables (cap : nat) (o : outer) (cut : option row -> bytes -> list bytes).

(* src/chopper_cli.rs:25-165, as ProgramModel.run_chop and chopper_cli, over the writer [o] *)
Definition run_chop_io (F : nat) (w : world) (a : args) (op : options ch) : outcome :=
  match open_inputs ds inflate bunzip w transports (all_factories prof ch lower parse_f64_ok split factories (op_csv_in ch op)) (op_inputs ch op) with
  | Ok inputs =>
      match new_header_sink (a_output a) (Some (op_csv_out ch op)) with
      | Ok k =>
          match (match kind_path k with Some p => create p | None => Ok tt end) with
          | Ok _ =>
              let (st, r) := chop F inputs (io_header_sink show_f64 show_f32 cap o cut k) (op_range ch op) in
              let n := length inputs in
              {| o_written := Some (match output_header inputs with
                                    | Some h => received cap o cut (kind_printer show_f64 show_f32 k h)
                                                  (events_at (r_log st) (out_chain n) (out_node n))
                                    | None => o_got o
                                    end);
                 o_result := r |}
          | e => {| o_written := None; o_result := fail_as e |}
          end
      | e => {| o_written := None; o_result := fail_as e |}
      end
  | e => {| o_written := None; o_result := fail_as e |}
  end.
Definition chopper_cli_io (F : nat) (w : world) (a : args) : outcome :=
  match parse_args prof ch zones parse_zone w a with
  | Ok op => run_chop_io F w a op
  | e => {| o_written := None; o_result := fail_as e |}
  end.
End Program.

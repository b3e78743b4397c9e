(** Model of what an interrupted system call (ErrorKind::Interrupted, EINTR on Unix) does: std's read_exact and
    write_all and BufWriter's flush_buf repeat the call (std, not in /repo); src/util/reader.rs passes it on.  The io::BufReader of src/source/dc_source.rs:27, which
    passes it on as well, is left out. *)
From Verif Require Export WriterModel.
Local Open Scope nat_scope.

(** ErrorKind::Interrupted: EINTR is 4 *)
Definition Interrupted : ioerr := OtherIo 4.
Definition is_interrupted (e : error) : bool :=
  match e with EIo (OtherIo n) => (n =? 4)%N | _ => false end.

(** ** Reading *)
(* std's default Read::read_exact on a ChopperBufReader (src/util/reader.rs:234-249 for read), as byteorder calls it
   for src/source/dc_source.rs:71-190; ReaderModel.read_exact is the same loop without the repetition *)
Fixpoint retry_exact_loop (fuel n : nat) (acc : bytes) (r : breader) : res bytes * breader :=
  match n with
  | O => (Ok acc, r)
  | _ =>
      match fuel with
      | O => (NoFuel, r)
      | S f =>
          let (o, r') := read n r in
          match o with
          | Ok [] => (Err (EIo UnexpectedEof), r')
          | Ok bs => retry_exact_loop f (n - length bs) (acc ++ bs) r'
          | Err e => if is_interrupted e then retry_exact_loop f n acc r' else (Err e, r')
          | e => (e, r')
          end
      end
  end.
Definition retry_exact (n : nat) (r : breader) : res bytes * breader :=
  retry_exact_loop (n + length (i_plan (r_inner r))) n [] r.

(** ** Writing *)
(* BufWriter::flush_buf; a repetition uses up one step of the writer's plan *)
Fixpoint retry_pour (fuel : nat) (bs : bytes) (o : outer) : res unit * bwriter :=
  match bs, fuel with
  | [], _ => (Ok tt, {| bw_buf := []; bw_out := o |})
  | _, O => (NoFuel, {| bw_buf := bs; bw_out := o |})
  | _, S f =>
      match outer_write bs o with
      | (Ok n, o') => if n =? 0 then (Err WriteZero, {| bw_buf := bs; bw_out := o' |}) else retry_pour f (skipn n bs) o'
      | (Err e, o') => if is_interrupted e then retry_pour f bs o' else (Err e, {| bw_buf := bs; bw_out := o' |})
      | (e, o') => (fail_as e, {| bw_buf := bs; bw_out := o' |})
      end
  end.
Definition retry_flush_buf (w : bwriter) : res unit * bwriter :=
  retry_pour (length (bw_buf w) + length (o_plan (bw_out w))) (bw_buf w) (bw_out w).
Section Buffered.
Variable cap : nat.
(* BufWriter::write: the call that bypasses the buffer is not repeated here *)
Definition retry_write (bs : bytes) (w : bwriter) : res nat * bwriter :=
  let (r, w) := if cap <? length (bw_buf w) + length bs then retry_flush_buf w else (Ok tt, w) in
  match r with
  | Ok _ =>
      if cap <=? length bs
      then let (n, o') := outer_write bs (bw_out w) in (n, {| bw_buf := bw_buf w; bw_out := o' |})
      else (Ok (length bs), {| bw_buf := bw_buf w ++ bs; bw_out := bw_out w |})
  | e => (fail_as e, w)
  end.
(* Write::write_all *)
Fixpoint retry_write_loop (fuel : nat) (bs : bytes) (w : bwriter) : res unit * bwriter :=
  match bs, fuel with
  | [], _ => (Ok tt, w)
  | _, O => (NoFuel, w)
  | _, S f =>
      match retry_write bs w with
      | (Ok n, w') => if n =? 0 then (Err WriteZero, w') else retry_write_loop f (skipn n bs) w'
      | (Err e, w') => if is_interrupted e then retry_write_loop f bs w' else (Err e, w')
      | (e, w') => (fail_as e, w')
      end
  end.
Definition retry_write_all (bs : bytes) (w : bwriter) : res unit * bwriter :=
  retry_write_loop (length bs + length (o_plan (bw_out w))) bs w.
(* the calls for a row or a header (src/write/csv_sink.rs:36-137, src/write/dc_sink.rs:128-190), up to the first failure *)
Fixpoint retry_pieces (ps : list bytes) (w : bwriter) : res unit * bwriter :=
  match ps with
  | [] => (Ok tt, w)
  | p :: t => match retry_write_all p w with
              | (Ok _, w') => retry_pieces t w'
              | (e, w') => (e, w')
              end
  end.
(* impl Drop for BufWriter *)
Definition retry_drop (w : bwriter) : bytes := o_got (bw_out (snd (retry_flush_buf w))).
End Buffered.

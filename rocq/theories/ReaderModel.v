(** Model of src/util/reader.rs (ChopperBufReader, ChopperBufPreviewer) and of
    src/util/file.rs. *)
From Verif Require Export BytesModel.

(** ** The reader underneath

    An arbitrary [std::io::Read]: the bytes it has left, what follows them (end of file, or
    a lasting error), and a plan that says how each coming [read] call behaves: return at
    most [k+1] bytes, or fail once.  When the plan is used up every call returns as much as
    it can.  Because plans are universally quantified this covers every schedule of short
    reads and transient failures.  ErrorKind::Interrupted, which std's read_exact retries,
    is not among the modelled error kinds. *)
Inductive step := Chunk (k : nat) | Fail (e : ioerr).
Record inner := { i_data : bytes; i_tail : option ioerr; i_plan : list step }.

(** Deliver up to [n] bytes. *)
Definition give (n : nat) (d : bytes) (tl : option ioerr) (plan : list step)
  : res bytes * inner :=
  if n =? 0 then (Ok [], {| i_data := d; i_tail := tl; i_plan := plan |})
  else match d, tl with
       | [], Some e => (Err (EIo e), {| i_data := []; i_tail := tl; i_plan := plan |})
       | _, _ => (Ok (firstn n d), {| i_data := skipn n d; i_tail := tl; i_plan := plan |})
       end.

(** [Read::read] with a buffer of [n] bytes: the bytes put into it, and the reader after. *)
Definition inner_read (n : nat) (r : inner) : res bytes * inner :=
  match i_plan r with
  | Fail e :: p => (Err (EIo e), {| i_data := i_data r; i_tail := i_tail r; i_plan := p |})
  | Chunk k :: p => give (Nat.min n (S k)) (i_data r) (i_tail r) p
  | [] => give n (i_data r) (i_tail r) []
  end.

(** ** ChopperBufReader *)

(* src/util/reader.rs:6 *)
Definition DEFAULT_BUF_SIZE : nat := 8 * 1024.

(* src/util/reader.rs:11-16 *)
Record breader := { r_inner : inner; r_buf : bytes; r_pos : nat; r_cap : nat }.

(* src/util/reader.rs:182-193 with_capacity; the assertion on the capacity is the caller's
   business (both callers pass DEFAULT_BUF_SIZE) *)
Definition with_capacity (capacity : nat) (i : inner) : breader :=
  {| r_inner := i; r_buf := repeat zero capacity; r_pos := 0; r_cap := 0 |}.

(** Bytes [src] copied over [buf] starting at [off]. *)
Definition overwrite (buf : bytes) (off : nat) (src : bytes) : bytes :=
  firstn off buf ++ src ++ skipn (off + length src) buf.

(* src/util/reader.rs:219-231 fill_buffer_one_shot *)
Definition fill_buffer_one_shot (r : breader) : res nat * breader :=
  if r_cap r =? length (r_buf r)
  then (Err (ECustom "asked to fill buffer when it was already at capacity"), r)
  else
    let (o, i) := inner_read (length (r_buf r) - r_cap r) (r_inner r) in
    match o with
    | Ok bs =>
        (Ok (length bs),
         {| r_inner := i; r_buf := overwrite (r_buf r) (r_cap r) bs;
            r_pos := r_pos r; r_cap := r_cap r + length bs |})
    | e => (fail_as e, {| r_inner := i; r_buf := r_buf r; r_pos := r_pos r; r_cap := r_cap r |})
    end.

(* src/util/reader.rs:205-217 fill_buffer: the loop, with a bound on the number of rounds
   ([NoFuel] when it is exhausted; shown unreachable) *)
Fixpoint fill_buffer_loop (fuel : nat) (r : breader) : res unit * breader :=
  match fuel with
  | O => (NoFuel, r)
  | S f =>
      let (o, r') := fill_buffer_one_shot r in
      match o with
      | Ok n =>
          if (n =? 0) || (r_cap r' =? length (r_buf r'))
          then (Ok tt, r')
          else fill_buffer_loop f r'
      | e => (fail_as e, r')
      end
  end.
Definition fill_buffer (r : breader) : res unit * breader :=
  fill_buffer_loop (S (length (r_buf r))) r.

(* src/util/reader.rs:253-262 BufRead::fill_buf: the visible slice *)
Definition visible (r : breader) : bytes := firstn (r_cap r - r_pos r) (skipn (r_pos r) (r_buf r)).
Definition fill_buf (r : breader) : res bytes * breader :=
  if r_cap r <=? r_pos r then
    let (o, i) := inner_read (length (r_buf r)) (r_inner r) in
    match o with
    | Ok bs =>
        let r' := {| r_inner := i; r_buf := overwrite (r_buf r) 0 bs;
                     r_pos := 0; r_cap := length bs |} in
        (Ok (visible r'), r')
    | e => (e, {| r_inner := i; r_buf := r_buf r; r_pos := r_pos r; r_cap := r_cap r |})
    end
  else (Ok (visible r), r).

(* src/util/reader.rs:264-266 BufRead::consume *)
Definition consume (amt : nat) (r : breader) : breader :=
  {| r_inner := r_inner r; r_buf := r_buf r;
     r_pos := Nat.min (r_pos r + amt) (r_cap r); r_cap := r_cap r |}.

(* src/util/reader.rs:235-249 Read::read into a buffer of [n] bytes; 198-201 discard_buffer *)
Definition read (n : nat) (r : breader) : res bytes * breader :=
  if (r_pos r =? r_cap r) && (length (r_buf r) <=? n) then
    let (o, i) := inner_read n (r_inner r) in
    (o, {| r_inner := i; r_buf := r_buf r; r_pos := 0; r_cap := 0 |})
  else
    let (o, r') := fill_buf r in
    match o with
    | Ok rem => (Ok (firstn n rem), consume (length (firstn n rem)) r')
    | e => (e, r')
    end.

(** std's default Read::read_exact, on top of [read]; [NoFuel] as above. *)
Fixpoint read_exact_loop (fuel n : nat) (acc : bytes) (r : breader) : res bytes * breader :=
  match n with
  | O => (Ok acc, r)
  | _ =>
      match fuel with
      | O => (NoFuel, r)
      | S f =>
          let (o, r') := read n r in
          match o with
          | Ok [] => (Err (EIo UnexpectedEof), r')
          | Ok bs => read_exact_loop f (n - length bs) (acc ++ bs) r'
          | e => (e, r')
          end
      end
  end.
Definition read_exact (n : nat) (r : breader) : res bytes * breader :=
  read_exact_loop n n [] r.

(** ** ChopperBufPreviewer *)

Definition LF : byte := "010"%char.
Definition CR : byte := "013"%char.

(* src/util/reader.rs:18-26 *)
Record previewer := {
  p_reader : breader; p_trimmed : bytes; p_lines : option (list bytes)
}.

(* src/util/reader.rs:158-174 make_string_no_cr; [None] is the Utf8Error *)
Definition make_string_no_cr (s : bytes) : option bytes :=
  match rev s with
  | [] => Some []
  | c :: t =>
      let s' := if Ascii.eqb c CR then rev t else s in
      if utf8 s' then Some s' else None
  end.

(* src/util/reader.rs:124-156 get_line; outer [None]: ran out of buffer *)
Definition get_line (buf : bytes) (start cap : nat) : option (option (bytes * nat)) :=
  let fin (e : nat) :=
    Some (match make_string_no_cr (firstn (e - start) (skipn start buf)) with
          | Some s => Some (s, e + 1)
          | None => None
          end) in
  match position (Ascii.eqb LF) (firstn (cap - start) (skipn start buf)) with
  | None => if length buf <=? cap then None else fin cap
  | Some p => fin (start + p)
  end.

(* src/util/reader.rs:85-122 get_lines_from_reader, add_next_line_to_lines; outer [None]
   is the exhausted bound, inner [None] the Utf8Error *)
Fixpoint get_lines_loop (fuel : nat) (buf : bytes) (start cap : nat) (lines : list bytes)
  : option (option (list bytes)) :=
  if cap <=? start then Some (Some lines)
  else match fuel with
       | O => None
       | S f =>
           match get_line buf start cap with
           | None => Some (Some lines)
           | Some None => Some None
           | Some (Some (l, next)) => get_lines_loop f buf next cap (lines ++ [l])
           end
       end.
Definition get_lines_from_reader (r : breader) : option (option (list bytes)) :=
  get_lines_loop (r_cap r) (r_buf r) 0 (r_cap r) [].

(* src/util/reader.rs:29-49, 63-83 ChopperBufPreviewer::new, prepare_preview, for a buffer
   of [capacity] bytes *)
Definition previewer_with (capacity : nat) (i : inner) : res previewer :=
  let (o, r) := fill_buffer (with_capacity capacity i) in
  let* _ := o in
  match get_lines_from_reader r with
  | None => NoFuel
  | Some ls => Ok {| p_reader := r; p_trimmed := firstn (r_cap r) (r_buf r); p_lines := ls |}
  end.
Definition previewer_new : inner -> res previewer := previewer_with DEFAULT_BUF_SIZE.

(* src/util/reader.rs:51-61 accessors *)
Definition get_lines (p : previewer) : option (list bytes) := p_lines p.
Definition get_buf (p : previewer) : bytes := p_trimmed p.
Definition get_reader (p : previewer) : breader := p_reader p.

(** ** src/util/file.rs *)

(** read_exact directly on a file. *)
Fixpoint inner_read_exact_loop (fuel n : nat) (acc : bytes) (r : inner) : res bytes * inner :=
  match n with
  | O => (Ok acc, r)
  | _ =>
      match fuel with
      | O => (NoFuel, r)
      | S f =>
          let (o, r') := inner_read n r in
          match o with
          | Ok [] => (Err (EIo UnexpectedEof), r')
          | Ok bs => inner_read_exact_loop f (n - length bs) (acc ++ bs) r'
          | e => (e, r')
          end
      end
  end.
Definition inner_read_exact (n : nat) (r : inner) : res bytes * inner :=
  inner_read_exact_loop n n [] r.

(* src/util/file.rs:9-40 are_contents_same, from the two opened files on; [NoFuel] when the
   bound on rounds is exhausted (shown unreachable) *)
Fixpoint same_loop (fuel : nat) (f1 f2 : inner) : res bool :=
  match fuel with
  | O => NoFuel
  | S f =>
      let (o1, f1') := inner_read DEFAULT_BUF_SIZE f1 in
      let* bs1 := o1 in
      match bs1 with
      | [] => let (o2, _) := inner_read DEFAULT_BUF_SIZE f2 in
              let* bs2 := o2 in Ok (length bs2 =? 0)
      | _ =>
          let (o2, f2') := inner_read_exact (length bs1) f2 in
          match o2 with
          | Ok bs2 => if bytes_eqb bs1 bs2 then same_loop f f1' f2' else Ok false
          | Err (EIo UnexpectedEof) => Ok false
          | e => fail_as e
          end
      end
  end.
Definition are_contents_same (f1 f2 : inner) : res bool :=
  same_loop (S (length (i_data f1))) f1 f2.

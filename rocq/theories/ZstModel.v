(** Model of src/decompress/zst.rs over the interface of ruzstd's FrameDecoder. *)
From Verif Require Export BytesModel.

(* src/decompress/zst.rs:20-24, 42-43: the decoder's errors become io::ErrorKind::Other *)
Definition zst_error : error := EIo (OtherIo 0).

(** What ruzstd::FrameDecoder (0.2) holds after init: the blocks of the frame not yet decoded
    ([None]: one that cannot be decoded, or cannot be read), the bytes decoded and not yet
    collected, and the size of the window that has to be kept while the frame is not finished.
    The content of a block is a parameter; the last one includes reading the checksum. *)
Record decoder := { z_todo : list (option bytes); z_out : bytes; z_window : nat }.

(** FrameDecoder::is_finished, can_collect. *)
Definition is_finished (d : decoder) : bool := match z_todo d with [] => true | _ => false end.
Definition can_collect (d : decoder) : nat :=
  if is_finished d then length (z_out d) else length (z_out d) - z_window d.

(** FrameDecoder::decode_blocks with UptoBytes(n): block by block, until the last one or until
    [n] bytes have been added. *)
Fixpoint decode_from (before n w : nat) (todo : list (option bytes)) (out : bytes) : res decoder :=
  match todo with
  | [] => Ok {| z_todo := []; z_out := out; z_window := w |}
  | None :: _ => Err zst_error
  | Some c :: t =>
      let out' := out ++ c in
      match t with
      | [] => Ok {| z_todo := []; z_out := out'; z_window := w |}
      | _ => if n <=? length out' - before
             then Ok {| z_todo := t; z_out := out'; z_window := w |}
             else decode_from before n w t out'
      end
  end.
Definition decode_blocks (d : decoder) (n : nat) : res decoder :=
  decode_from (length (z_out d)) n (z_window d) (z_todo d) (z_out d).

(** FrameDecoder::read: as much as can be collected and fits. *)
Definition collect (d : decoder) (len : nat) : bytes * decoder :=
  let k := Nat.min len (can_collect d) in
  (firstn k (z_out d), {| z_todo := z_todo d; z_out := skipn k (z_out d); z_window := z_window d |}).

(* src/decompress/zst.rs:32-45 the loop of read; [fuel] bounds it *)
Fixpoint zst_fill (fuel : nat) (d : decoder) (len : nat) : res decoder :=
  if is_finished d then Ok d
  else
    let bytes_available := can_collect d in
    if len <=? bytes_available then Ok d
    else
      match fuel with
      | O => NoFuel
      | S f =>
          let* d' := decode_blocks d (len - bytes_available) in      (* :38-44 *)
          zst_fill f d' len
      end.

(* src/decompress/zst.rs:32-48 read, with a buffer of [len] bytes *)
Definition zst_read (d : decoder) (len : nat) : res (bytes * decoder) :=
  let* d' := zst_fill (length (z_todo d)) d len in
  Ok (collect d' len).

(* src/decompress/zst.rs:10-25 new, init: the header of the first frame of the stream is read, here
   given as the list of its frames (blocks and window); a stream without one is an error *)
Definition zst_new (frames : list (list (option bytes) * nat)) : res decoder :=
  match frames with
  | (blocks, w) :: _ => Ok {| z_todo := blocks; z_out := []; z_window := w |}
  | [] => Err zst_error
  end.

(** A series of reads, up to the first failure. *)
Fixpoint zst_reads (d : decoder) (lens : list nat) : list bytes * res unit :=
  match lens with
  | [] => ([], Ok tt)
  | n :: t =>
      match zst_read d n with
      | Ok (x, d') => let (xs, o) := zst_reads d' t in (x :: xs, o)
      | e => ([], fail_as e)
      end
  end.

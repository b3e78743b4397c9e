(** Byte-level vocabulary: byte order, two's complement, UTF-8, decimal numbers, and
    readers over a finite stream. *)
From Coq Require Import DecimalString.
From Verif Require Export TypesModel.

(** ** Fixed-size integers *)

Definition byte_of (n : N) : byte := ascii_of_N n.          (* truncates to 8 bits *)
Definition of_byte (a : byte) : N := N_of_ascii a.

(** Little endian, [n] bytes, higher bits dropped. *)
Fixpoint le (n : nat) (x : N) : bytes :=
  match n with
  | O => []
  | S n' => byte_of (x mod 256) :: le n' (x / 256)
  end.
Fixpoint of_le (bs : bytes) : N :=
  match bs with
  | [] => 0
  | a :: t => of_byte a + 256 * of_le t
  end%N.
(** Big endian: byteorder's write_uN::<BigEndian> / read_uN::<BigEndian>. *)
Definition be (n : nat) (x : N) : bytes := rev (le n x).
Definition of_be (bs : bytes) : N := of_le (rev bs).

(** Two's complement on [w] bits: [z as uW] and [n as iW]. *)
Definition to_unsigned (w : N) (z : Z) : N := Z.to_N (z mod 2 ^ Z.of_N w).
Definition to_signed (w : N) (n : N) : Z :=
  (if (n <? 2 ^ (w - 1))%N then Z.of_N n else Z.of_N n - 2 ^ Z.of_N w)%Z.

(** ** UTF-8, as accepted by core::str::from_utf8 *)
Definition between (lo hi : N) (a : byte) : bool := (lo <=? of_byte a)%N && (of_byte a <=? hi)%N.
Definition cont := between 0x80 0xBF.
Fixpoint utf8 (s : bytes) : bool :=
  match s with
  | [] => true
  | a :: t =>
      if (of_byte a <? 0x80)%N then utf8 t
      else if between 0xC2 0xDF a then
        match t with c1 :: t1 => cont c1 && utf8 t1 | _ => false end
      else if between 0xE0 0xEF a then
        match t with
        | c1 :: c2 :: t2 =>
            (if (of_byte a =? 0xE0)%N then between 0xA0 0xBF c1
             else if (of_byte a =? 0xED)%N then between 0x80 0x9F c1
             else cont c1) && cont c2 && utf8 t2
        | _ => false
        end
      else if between 0xF0 0xF4 a then
        match t with
        | c1 :: c2 :: c3 :: t3 =>
            (if (of_byte a =? 0xF0)%N then between 0x90 0xBF c1
             else if (of_byte a =? 0xF4)%N then between 0x80 0x8F c1
             else cont c1) && cont c2 && cont c3 && utf8 t3
        | _ => false
        end
      else false
  end.

(** ** Decimal rendering of naturals ([format!("{}", n)]) *)
Definition dec (n : N) : bytes := b (NilZero.string_of_uint (N.to_uint n)).

(** ** Readers *)

(** What is left of a byte stream: data, then either the end or an I/O error. Chunking by
    the underlying reader is invisible to read_exact-style reads. *)
Record stream := { s_data : bytes; s_tail : option ioerr }.

(** The failure a read_exact reports when the data does not suffice. *)
Definition end_err (s : stream) : error :=
  EIo (match s_tail s with Some e => e | None => UnexpectedEof end).

(** A reader: a value and the rest of the stream. The rest after a failure is not used by
    any caller modelled here. *)
Definition rd (A : Type) := stream -> res (A * stream).
Definition ret {A} (x : A) : rd A := fun s => Ok (x, s).
Definition rbind {A B} (p : rd A) (q : A -> rd B) : rd B :=
  fun s => let* (x, s') := p s in q x s'.
Definition lift {A} (r : res A) : rd A := fun s => let* x := r in Ok (x, s).
Notation "'let!' x ':=' p 'in' q" := (rbind p (fun x => q))
  (at level 200, x pattern, right associativity).

(** std::io::Read::read_exact of [n] bytes. *)
Definition take_exact (n : N) : rd bytes := fun s =>
  if (N.of_nat (length (s_data s)) <? n)%N then Err (end_err s)
  else Ok (firstn (N.to_nat n) (s_data s),
           {| s_data := skipn (N.to_nat n) (s_data s); s_tail := s_tail s |}).

(** byteorder reads *)
Definition read_be (n : N) : rd N := let! bs := take_exact n in ret (of_be bs).
Definition read_le (n : N) : rd N := let! bs := take_exact n in ret (of_le bs).

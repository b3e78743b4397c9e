(** CRC-32 (ISO 3309, as in zip archives), by polynomials over the field of two elements. A
    number stands for the polynomial whose coefficients are its bits; addition is [N.lxor]. *)
From Verif Require Export BytesModel.
Local Open Scope N_scope.

(** The product of two polynomials. *)
Fixpoint times_pos (p : positive) (g : N) : N :=
  match p with
  | xH => g
  | xO p => N.double (times_pos p g)
  | xI p => N.lxor (N.double (times_pos p g)) g
  end.
Definition times (q g : N) : N := match q with N0 => 0 | Npos p => times_pos p g end.

(** x^32+x^26+x^23+x^22+x^16+x^12+x^11+x^10+x^8+x^7+x^5+x^4+x^2+x+1 *)
Definition generator : N :=
  fold_right N.lxor 0 (map (fun k => 2 ^ k) [32; 26; 23; 22; 16; 12; 11; 10; 8; 7; 5; 4; 2; 1; 0]).

(** The message as a polynomial: its bits are the coefficients, the first bit that of the highest
    power; within a byte, the least significant bit comes first. *)
Definition bits_of (c : byte) : list bool := map (N.testbit (of_byte c)) [0; 1; 2; 3; 4; 5; 6; 7].
Definition polynomial (bits : list bool) : N := fold_left (fun acc bit => 2 * acc + N.b2n bit) bits 0.
Definition message (m : bytes) : N := polynomial (flat_map bits_of m).

(** The checksum: complement the first 32 bits of the message followed by 32 zeros, take the
    remainder modulo the generator, complement it, and read it with the highest power as the least
    significant bit. *)
Definition checksum (m : bytes) (crc : N) : Prop :=
  exists quotient remainder,
    N.lxor (message m * 2 ^ 32) ((2 ^ 32 - 1) * 2 ^ (8 * N.of_nat (length m))) =
      N.lxor (times quotient generator) remainder /\
    remainder < 2 ^ 32 /\
    crc < 2 ^ 32 /\ forall i, i < 32 -> N.testbit crc i = negb (N.testbit remainder (31 - i)).

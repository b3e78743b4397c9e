(** Specifications for the CSV guessing helpers and number texts. *)
From Verif Require Export CsvUtilModel Utf8Spec SortProofs.
Local Open Scope nat_scope.

(** A string of characters and its UTF-8 bytes. *)
Definition str (cs : text) : bytes := flat_map encode cs.

(** Number of times the character [c] occurs. *)
Definition occurs (c : N) (cs : text) : nat := count_occ N.eq_dec cs c.

(** The fields of a line: the pieces between delimiters. *)
Definition fields_of (d : N) (cs : text) (fs : list text) : Prop :=
  fs <> [] /\ Forall (fun f => ~ In d f) fs /\
  cs = concat (map (fun p => match p with (O, f) => f | (_, f) => d :: f end) (enum_from 0 fs)).

(** Unicode white space. *)
Definition white_space (c : N) : bool :=
  existsb (N.eqb c) [0x9; 0xA; 0xB; 0xC; 0xD; 0x20; 0x85; 0xA0; 0x1680;
    0x2000; 0x2001; 0x2002; 0x2003; 0x2004; 0x2005; 0x2006; 0x2007; 0x2008; 0x2009; 0x200A;
    0x2028; 0x2029; 0x202F; 0x205F; 0x3000]%N.
(** Text of a field without the white space around it. *)
Definition stripped (s t : text) : Prop :=
  exists pre post, s = pre ++ t ++ post /\ Forall (fun c => white_space c = true) pre /\
    Forall (fun c => white_space c = true) post /\
    (forall c t', t = c :: t' -> white_space c = false) /\
    (forall c t', t = t' ++ [c] -> white_space c = false).

(** Decimal digits of a number. *)
Definition digit (c : N) : Prop := (48 <= c <= 57)%N.
Inductive numeral : text -> N -> Prop :=
| numeral_one c : digit c -> numeral [c] (c - 48)%N
| numeral_more s n c : numeral s n -> digit c -> numeral (s ++ [c]) (10 * n + (c - 48))%N.

(** An integer text of the given range: optional sign, decimal digits. *)
Definition int_text (s : text) (z : Z) : Prop :=
  exists digits n, numeral digits n /\
    ((s = digits /\ z = Z.of_N n) \/ (s = 43%N :: digits /\ z = Z.of_N n) \/
     (s = 45%N :: digits /\ z = (- Z.of_N n)%Z)).
Definition i64_text (s : text) : Prop := exists z, int_text s z /\ (- 2 ^ 63 <= z < 2 ^ 63)%Z.

(** The type a field looks like. *)
Definition looks_like (f64_ok : text -> bool) (field : text) (t : ftype) : Prop :=
  exists s, stripped field s /\
    ((i64_text s /\ t = TLong) \/
     (~ i64_text s /\ f64_ok s = true /\ t = TDouble) \/
     (~ i64_text s /\ f64_ok s = false /\ t = TString)).

Definition non_numeric (t : ftype) : Prop := t = TBoolean \/ t = TByteBuf \/ t = TString.
Definition floating (t : ftype) : Prop := t = TFloat \/ t = TDouble.

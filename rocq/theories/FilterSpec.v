(** Specification vocabulary for values, headers and filters.  Nothing here refers to
    the model's functions; only to its data types. *)
From Verif Require Export TypesModel.

(** ** IEEE-754 values *)

(** What a bit pattern denotes.  [FpFin z] is the finite number [z * 2^(2 - bias - fb)],
    i.e. [z] counts units of the smallest positive subnormal. *)
Inductive fp := FpNaN | FpNegInf | FpFin (z : Z) | FpPosInf.

(** [eb] exponent bits, [fb] fraction bits; the bit above them is the sign. *)
Definition fp_decode (eb fb bits : N) : fp :=
  let s := ((bits / 2 ^ (eb + fb)) mod 2)%N in
  let e := ((bits / 2 ^ fb) mod 2 ^ eb)%N in
  let f := (bits mod 2 ^ fb)%N in
  let sgn := (if N.eqb s 1 then -1 else 1)%Z in
  if N.eqb e (2 ^ eb - 1) then
    if N.eqb f 0 then (if N.eqb s 1 then FpNegInf else FpPosInf) else FpNaN
  else if N.eqb e 0 then FpFin (sgn * Z.of_N f)                     (* zero, subnormal *)
  else FpFin (sgn * (Z.of_N (2 ^ fb + f) * 2 ^ Z.of_N (e - 1))).    (* normal *)

Definition double_of (bits : N) : fp := fp_decode 11 52 bits.
Definition float_of (bits : N) : fp := fp_decode 8 23 bits.

Definition fp_lt (x y : fp) : Prop :=
  match x, y with
  | FpNaN, _ | _, FpNaN => False
  | FpNegInf, FpNegInf => False
  | FpNegInf, _ => True
  | FpFin _, FpNegInf => False
  | FpFin a, FpFin c => (a < c)%Z
  | FpFin _, FpPosInf => True
  | FpPosInf, _ => False
  end.

(** IEEE equality: NaN equals nothing, -0 = +0 (both are [FpFin 0]). *)
Definition fp_eq (x y : fp) : Prop := x = y /\ x <> FpNaN.

(** ** Lexicographic order of byte strings *)
Definition lex_lt (x y : bytes) : Prop :=
  (exists c t, y = x ++ c :: t) \/
  (exists p a c s t, x = p ++ a :: s /\ y = p ++ c :: t /\
                     (N_of_ascii a < N_of_ascii c)%N).

(** ** Field values *)

(** The type of a value ([None]: null). *)
Definition type_of (v : fvalue) : option ftype :=
  match v with
  | VBoolean _ => Some TBoolean | VByte _ => Some TByte | VByteBuf _ => Some TByteBuf
  | VChar _ => Some TChar | VDouble _ => Some TDouble | VFloat _ => Some TFloat
  | VInt _ => Some TInt | VLong _ => Some TLong | VShort _ => Some TShort
  | VString _ => Some TString | VNone => None
  end.

(** Values of one type, not Boolean or ByteBuf. *)
Definition comparable (x y : fvalue) : Prop :=
  type_of x = type_of y /\ type_of x <> Some TBoolean /\ type_of x <> Some TByteBuf.

Definition is_nan_value (v : fvalue) : Prop :=
  match v with
  | VDouble x => double_of x = FpNaN
  | VFloat x => float_of x = FpNaN
  | _ => False
  end.

(** Numeric, IEEE or lexicographic order of two values of the same type. *)
Definition val_lt (x y : fvalue) : Prop :=
  match x, y with
  | VByte a, VByte c | VChar a, VChar c => (a < c)%N
  | VDouble a, VDouble c => fp_lt (double_of a) (double_of c)
  | VFloat a, VFloat c => fp_lt (float_of a) (float_of c)
  | VInt a, VInt c | VLong a, VLong c | VShort a, VShort c => (a < c)%Z
  | VString a, VString c => lex_lt a c
  | _, _ => False
  end.

Definition val_eq (x y : fvalue) : Prop :=
  match x, y with
  | VByte a, VByte c | VChar a, VChar c => a = c
  | VDouble a, VDouble c => fp_eq (double_of a) (double_of c)
  | VFloat a, VFloat c => fp_eq (float_of a) (float_of c)
  | VInt a, VInt c | VLong a, VLong c | VShort a, VShort c => a = c
  | VString a, VString c => a = c
  | VNone, VNone => True
  | _, _ => False
  end.

(** ** Column lookup *)

(** Two ASCII characters equal up to case. *)
Definition ci_char (a c : ascii) : Prop :=
  a = c \/
  exists k, (k < 26)%N /\
    ((N_of_ascii a = 65 + k /\ N_of_ascii c = 97 + k) \/
     (N_of_ascii a = 97 + k /\ N_of_ascii c = 65 + k))%N.
Definition ci_eq (x y : bytes) : Prop := Forall2 ci_char x y.

(** [i] is the first column whose name is [name] up to ASCII case. *)
Definition first_named (names : list bytes) (name : bytes) (i : nat) : Prop :=
  (exists n, nth_error names i = Some n /\ ci_eq n name) /\
  (forall j n, j < i -> nth_error names j = Some n -> ~ ci_eq n name).

Definition none_named (names : list bytes) (name : bytes) : Prop :=
  forall n, In n names -> ~ ci_eq n name.

(** [l'] is [l] without its position [i]. *)
Definition without {A} (i : nat) (l l' : list A) : Prop :=
  i < length l /\ length l' = length l - 1 /\
  (forall j, j < i -> nth_error l' j = nth_error l j) /\
  (forall j, i <= j -> nth_error l' j = nth_error l (S j)).

(** The elements of [l] at the positions satisfying [keep], in order. *)
Fixpoint select {A} (keep : nat -> bool) (i : nat) (l : list A) : list A :=
  match l with
  | [] => []
  | x :: t => if keep i then x :: select keep (S i) t else select keep (S i) t
  end.

(** The DC file format, version 2, as a relation between contents and bytes (C82, C83).
    Nothing here refers to the code's reader or writer. *)
From Verif Require Export DcSpec.

(** ** Numbers: big-endian, two's complement *)
Fixpoint number (bs : bytes) : N :=
  match bs with
  | [] => 0
  | c :: t => of_byte c * 256 ^ N.of_nat (length t) + number t
  end%N.
Definition unsigned (k : nat) (x : N) (bs : bytes) : Prop := length bs = k /\ number bs = x.
Definition signed (k : nat) (x : Z) (bs : bytes) : Prop :=
  length bs = k /\
  let half := (2 ^ Z.of_nat (8 * k - 1))%Z in
  let n := Z.of_N (number bs) in
  ((n < half)%Z /\ x = n \/ (half <= n)%Z /\ x = (n - 2 * half)%Z).

(** ** Strings *)
(** in descriptors: a length and the text *)
Definition sized (s bs : bytes) : Prop :=
  utf8 s = true /\ exists l, unsigned 4 (N.of_nat (length s)) l /\ bs = l ++ s.
(** in rows: a short length, or -1 and a long one *)
Definition string_value (s bs : bytes) : Prop :=
  utf8 s = true /\
  ((exists l, signed 2 (Z.of_nat (length s)) l /\ bs = l ++ s) \/
   (exists m l, signed 2 (-1) m /\ unsigned 4 (N.of_nat (length s)) l /\ bs = m ++ l ++ s)).

(** ** Header *)
(** Java type descriptors. *)
Definition descriptor_of (t : ftype) (s : bytes) : Prop :=
  (t, s) = (TBoolean, b "Z") \/ (t, s) = (TByte, b "B") \/ (t, s) = (TChar, b "C") \/ (t, s) = (TDouble, b "D") \/
  (t, s) = (TFloat, b "F") \/ (t, s) = (TInt, b "I") \/ (t, s) = (TLong, b "J") \/ (t, s) = (TShort, b "S") \/
  (t, s) = (TString, b "Ljava.lang.String;") \/ (t, s) = (TByteBuf, b "Ljava.lang.ByteBuffer;").
(** one column: name, type, display hint *)
Definition dc_column (name : bytes) (t : ftype) (bs : bytes) : Prop :=
  exists n d dn hint x, sized name n /\ descriptor_of t d /\ sized d dn /\ signed 4 x hint /\ (-1 <= x <= 6)%Z /\
    bs = n ++ dn ++ hint.
Inductive dc_columns : list bytes -> list ftype -> bytes -> Prop :=
| cs_nil : dc_columns [] [] []
| cs_cons name t bs names types rest : dc_column name t bs -> dc_columns names types rest ->
    dc_columns (name :: names) (t :: types) (bs ++ rest).
(** magic number, version, user data, columns *)
Definition header_layout (names : list bytes) (types : list ftype) (bs : bytes) : Prop :=
  exists magic version ul user count cols,
    unsigned 8 0x44434154 magic /\ unsigned 2 2 version /\
    unsigned 4 (N.of_nat (length user)) ul /\
    unsigned 4 (N.of_nat (length types)) count /\ types <> [] /\ dc_columns names types cols /\
    bs = magic ++ version ++ ul ++ user ++ count ++ cols.

(** ** Rows *)
Definition value (t : ftype) (v : fvalue) (bs : bytes) : Prop :=
  match t, v with
  | TByte, VByte x => unsigned 1 x bs
  | TChar, VChar x => unsigned 2 x bs
  | TDouble, VDouble x => unsigned 8 x bs
  | TFloat, VFloat x => unsigned 4 x bs
  | TInt, VInt x => signed 4 x bs
  | TLong, VLong x => signed 8 x bs
  | TShort, VShort x => signed 2 x bs
  | TString, VString s => string_value s bs
  | _, _ => False
  end.
(** bit [i mod 8] of byte [i / 8]: value [i] is null *)
Definition null_bit (bitmap : bytes) (i : nat) : bool :=
  N.testbit (of_byte (nth (i / 8) bitmap (byte_of 0))) (N.of_nat (i mod 8)).
(** null values take no room *)
Inductive values (null : nat -> bool) : nat -> list ftype -> list fvalue -> bytes -> Prop :=
| vs_nil i : values null i [] [] []
| vs_null i t types vs rest : null i = true -> values null (S i) types vs rest ->
    values null i (t :: types) (VNone :: vs) rest
| vs_value i t v bs types vs rest : null i = false -> value t v bs -> values null (S i) types vs rest ->
    values null i (t :: types) (v :: vs) (bs ++ rest).
(** timestamp, one bit per column rounded up to bytes, values *)
Definition row_layout (types : list ftype) (r : row) (bs : bytes) : Prop :=
  exists time bitmap body,
    unsigned 8 (ts r) time /\
    length bitmap = (length types + 7) / 8 /\
    values (null_bit bitmap) 0 types (vals r) body /\
    bs = time ++ bitmap ++ body.
Inductive rows_layout (types : list ftype) : list row -> bytes -> Prop :=
| rl_nil : rows_layout types [] []
| rl_cons r bs rows rest : row_layout types r bs -> rows_layout types rows rest ->
    rows_layout types (r :: rows) (bs ++ rest).

Definition dc_layout (names : list bytes) (types : list ftype) (rows : list row) (bs : bytes) : Prop :=
  exists hb rb, header_layout names types hb /\ rows_layout types rows rb /\ bs = hb ++ rb.

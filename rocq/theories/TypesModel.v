(** Model of src/chopper/types.rs and of the sink traits of src/chopper/chopper.rs. *)
From Verif Require Export Base.

(* src/chopper/types.rs:11  [pub type Nanos = u64].  Timestamps are [N]; that they fit
   64 bits is a hypothesis wherever it matters. *)
Definition nanos := N.

(* src/chopper/types.rs:13-22  TimestampRange, TIMESTAMP_RANGE_ALL *)
Record ts_range := { tr_begin : option nanos; tr_end : option nanos }.
Definition range_all : ts_range := {| tr_begin := None; tr_end := None |}.

(* src/chopper/types.rs:180-192  FieldType *)
Inductive ftype :=
| TBoolean | TByte | TByteBuf | TChar | TDouble | TFloat | TInt | TLong | TShort | TString.

(* derived PartialEq, src/chopper/types.rs:180 *)
Definition ftype_eqb (x y : ftype) : bool :=
  match x, y with
  | TBoolean, TBoolean | TByte, TByte | TByteBuf, TByteBuf | TChar, TChar
  | TDouble, TDouble | TFloat, TFloat | TInt, TInt | TLong, TLong
  | TShort, TShort | TString, TString => true
  | _, _ => false
  end.

(* src/chopper/types.rs:93-106  FieldValue.  Doubles and floats are their IEEE-754 bit
   patterns (64 and 32 bits). *)
Inductive fvalue :=
| VBoolean (x : bool) | VByte (x : N) | VByteBuf (x : bytes) | VChar (x : N)
| VDouble (bits : N) | VFloat (bits : N)
| VInt (x : Z) | VLong (x : Z) | VShort (x : Z) | VString (s : bytes) | VNone.

(* src/chopper/types.rs:38-42  Header *)
Record header := { h_names : list bytes; h_types : list ftype }.

(* src/chopper/types.rs:194-198  Row *)
Record row := { ts : nanos; vals : list fvalue }.

(* Vec<T>: PartialEq *)
Fixpoint list_eqb {A} (eqb : A -> A -> bool) (x y : list A) : bool :=
  match x, y with
  | [], [] => true
  | a :: x', c :: y' => eqb a c && list_eqb eqb x' y'
  | _, _ => false
  end.

(* src/chopper/types.rs:44-48  impl PartialEq for Header *)
Definition header_eqb (x y : header) : bool :=
  list_eqb bytes_eqb (h_names x) (h_names y) && list_eqb ftype_eqb (h_types x) (h_types y).

(* src/chopper/types.rs:82-90  Header::get_field_index (case sensitive) *)
Definition get_field_index (h : header) (name : bytes) : res nat :=
  match position (fun s => bytes_eqb s name) (h_names h) with
  | None => Err (ECustom "Failed to find column")
  | Some i => Ok i
  end.

(** ** Comparison *)

(* f64/f32::partial_cmp and ==, as used at src/chopper/types.rs:119-120,146-147, on bit
   patterns of [w] bits with [m] fraction bits: the sign bit and the magnitude below it;
   a magnitude above the infinity pattern is a NaN, and both zeros have key 0. *)
Definition f_mag (w bits : N) : N := (bits mod 2 ^ (w - 1))%N.
Definition f_neg (w bits : N) : bool := N.testbit bits (w - 1).
Definition f_nan (w m bits : N) : bool := (2 ^ (w - 1) - 2 ^ m <? f_mag w bits)%N.
Definition f_key (w bits : N) : Z :=
  if f_neg w bits then (- Z.of_N (f_mag w bits))%Z else Z.of_N (f_mag w bits).
Definition f_cmp (w m x y : N) : option comparison :=
  if f_nan w m x || f_nan w m y then None else Some (f_key w x ?= f_key w y)%Z.
Definition f_eqb (w m x y : N) : bool :=
  match f_cmp w m x y with Some Eq => true | _ => false end.

Definition f64_cmp := f_cmp 64 52.
Definition f32_cmp := f_cmp 32 23.
Definition f64_eqb := f_eqb 64 52.
Definition f32_eqb := f_eqb 32 23.

(* str::cmp: lexicographic on bytes, src/chopper/types.rs:124 *)
Fixpoint bytes_cmp (x y : bytes) : comparison :=
  match x, y with
  | [], [] => Eq
  | [], _ :: _ => Lt
  | _ :: _, [] => Gt
  | a :: x', c :: y' =>
      match (N_of_ascii a ?= N_of_ascii c)%N with
      | Eq => bytes_cmp x' y'
      | o => o
      end
  end.

(* src/chopper/types.rs:108-133  impl PartialOrd for FieldValue.  [Exit] is the
   process::exit(1) of Error::exit (src/error.rs:31-41). *)
Definition fv_partial_cmp (x y : fvalue) : res (option comparison) :=
  match x, y with
  | VBoolean _, VBoolean _ => Exit
  | VByte a, VByte c => Ok (Some (a ?= c)%N)
  | VByteBuf _, VByteBuf _ => Exit
  | VChar a, VChar c => Ok (Some (a ?= c)%N)
  | VDouble a, VDouble c => Ok (f64_cmp a c)
  | VFloat a, VFloat c => Ok (f32_cmp a c)
  | VInt a, VInt c => Ok (Some (a ?= c)%Z)
  | VLong a, VLong c => Ok (Some (a ?= c)%Z)
  | VShort a, VShort c => Ok (Some (a ?= c)%Z)
  | VString a, VString c => Ok (Some (bytes_cmp a c))
  | VNone, VNone => Ok (Some Eq)
  | _, _ => Exit
  end.

(* src/chopper/types.rs:135-156  impl PartialEq for FieldValue *)
Definition fv_eq (x y : fvalue) : res bool :=
  match x, y with
  | VBoolean _, VBoolean _ => Exit
  | VByte a, VByte c => Ok (a =? c)%N
  | VByteBuf _, VByteBuf _ => Exit
  | VChar a, VChar c => Ok (a =? c)%N
  | VDouble a, VDouble c => Ok (f64_eqb a c)
  | VFloat a, VFloat c => Ok (f32_eqb a c)
  | VInt a, VInt c => Ok (a =? c)%Z
  | VLong a, VLong c => Ok (a =? c)%Z
  | VShort a, VShort c => Ok (a =? c)%Z
  | VString a, VString c => Ok (bytes_eqb a c)
  | VNone, VNone => Ok true
  | _, _ => Ok false
  end.

(** ** Sinks *)

(** What a data sink is called with: a row (src/chopper/chopper.rs:36) or a flush (:40). *)
Inductive event := EvRow (r : row) | EvFlush.

(* src/chopper/chopper.rs:27-45  trait DataSink.  A sink is an arbitrary deterministic
   state machine; its reaction to a call is a function of the calls it received before
   (chronological) and of the call.  [sk_write h r] is the contents of [io_rows] after
   [write_row] was called with [io_rows = [r]]. *)
Record sink := {
  sk_write : list event -> row -> res (list row);
  sk_flush : list event -> res unit
}.

(* The default write_row/flush of the trait, src/chopper/chopper.rs:36-42. *)
Definition default_flush : list event -> res unit := fun _ => Ok tt.
Definition pass_sink : sink :=
  {| sk_write := fun _ r => Ok [r]; sk_flush := default_flush |}.

(* src/chopper/chopper.rs:23-25  trait HeaderSink: mutates the header, returns a sink. *)
Definition header_sink := header -> res (header * sink).

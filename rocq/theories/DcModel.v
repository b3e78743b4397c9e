(** Model of the DC file format: src/util/dc_util.rs, src/write/dc_sink.rs,
    src/source/dc_source.rs. *)
From Verif Require Export BytesModel.

(* src/util/dc_util.rs:10-11 *)
Definition MAGIC_NUM : N := 0x44434154.
Definition VERSION : N := 2.

(* src/util/dc_util.rs:24-26 get_bitset_bytes; [field_count - 1] on a usize: the underflow
   for 0 panics in a debug build (in a release build it wraps to a size no allocation can
   satisfy) *)
Definition get_bitset_bytes (field_count : nat) : res nat :=
  match field_count with
  | O => Panic
  | S k => Ok (1 + k / 8)
  end.

(* src/util/dc_util.rs:34-62 the two type maps *)
Definition type_string (t : ftype) : bytes :=
  b (match t with
     | TBoolean => "Z" | TByte => "B" | TByteBuf => "Ljava.lang.ByteBuffer;" | TChar => "C"
     | TDouble => "D" | TFloat => "F" | TInt => "I" | TLong => "J" | TShort => "S"
     | TString => "Ljava.lang.String;"
     end).
Definition all_types : list ftype :=
  [TBoolean; TByte; TByteBuf; TChar; TDouble; TFloat; TInt; TLong; TShort; TString].
Definition type_of_string (s : bytes) : option ftype :=
  find (fun t => bytes_eqb (type_string t) s) all_types.

(** ** Writer.  Output is the bytes handed to the writer; errors of the underlying writer
    are not modelled. *)

(* src/util/dc_util.rs:116-121 write_sized_string; [len as u32] *)
Definition write_sized_string (s : bytes) : bytes := be 4 (N.of_nat (length s)) ++ s.

(* src/util/dc_util.rs:123-134 write_string_value *)
Definition write_string_value (s : bytes) : bytes :=
  (if (N.of_nat (length s) <=? 32767)%N
   then be 2 (N.of_nat (length s))
   else be 2 (to_unsigned 16 (-1)) ++ be 4 (N.of_nat (length s))) ++ s.

(* src/write/dc_sink.rs:82-107 write_field_type *)
Definition write_field_type (t : ftype) : bytes * res unit :=
  match t with
  | TBoolean => ([], Err (ECustom "DCSink -- boolean field type is not supported"))
  | TByteBuf => ([], Err (ECustom "DCSink -- ByteBuffer field type is not supported"))
  | _ => (write_sized_string (type_string t), Ok tt)
  end.

(* src/write/dc_sink.rs:109-125 write_display_hint; only DisplayHint::None is ever written *)
Definition write_display_hint : bytes := be 4 (to_unsigned 32 (-1)).

(* src/write/dc_sink.rs:74-78 the loop over the fields *)
Fixpoint write_fields (names : list bytes) (types : list ftype) : bytes * res unit :=
  match names, types with
  | nm :: names', t :: types' =>
      let (w, o) := write_field_type t in
      match o with
      | Ok _ =>
          let (w', o') := write_fields names' types' in
          (write_sized_string nm ++ w ++ write_display_hint ++ w', o')
      | e => (write_sized_string nm ++ w, e)
      end
  | _, _ => ([], Ok tt)
  end.

(* src/write/dc_sink.rs:60-80 write_field_descriptors *)
Definition write_field_descriptors (h : header) : bytes * res unit :=
  let count := be 4 (N.of_nat (length (h_types h))) in
  if length (h_names h) =? length (h_types h)
  then let (w, o) := write_fields (h_names h) (h_types h) in (count ++ w, o)
  else (count, Err (ECustom "DCSink -- number of field name and number of field types does not match")).

(* src/write/dc_sink.rs:37-58 write_header, write_magic, write_version,
   write_empty_user_data *)
Definition write_header (h : header) : bytes * res unit :=
  let (w, o) := write_field_descriptors h in
  (be 8 MAGIC_NUM ++ be 2 VERSION ++ be 4 0 ++ w, o).

(* src/write/dc_sink.rs:128-135 process_header: bytes written, and the sink's
   bitset_bytes *)
Definition dc_process_header (h : header) : bytes * res nat :=
  let (w, o) := write_header h in
  (w, let* _ := o in
      match length (h_types h) with                     (* :131 [len() - 1] *)
      | O => Panic
      | S k => get_bitset_bytes k
      end).

Definition is_none (v : fvalue) : bool := match v with VNone => true | _ => false end.

(* src/write/dc_sink.rs:150-162 one byte of the bitset: bit j is set for a null value *)
Fixpoint null_bits (w : N) (vs : list fvalue) : N :=
  match vs with
  | [] => 0
  | v :: t => (if is_none v then w else 0) + null_bits (2 * w) t
  end%N.
(* src/write/dc_sink.rs:146-164 the bitset *)
Fixpoint write_bitset (n : nat) (vs : list fvalue) : bytes :=
  match n with
  | O => []
  | S n' => byte_of (null_bits 1 (firstn 8 vs)) :: write_bitset n' (skipn 8 vs)
  end.

(* src/write/dc_sink.rs:169-187 one value *)
Definition write_value (v : fvalue) : bytes * res unit :=
  match v with
  | VBoolean _ => ([], Err (ECustom "DCSink -- boolean field type is not supported"))
  | VByte x => (be 1 x, Ok tt)
  | VByteBuf _ => ([], Err (ECustom "DCSink -- ByteBuffer field type is not supported"))
  | VChar x => (be 2 x, Ok tt)
  | VDouble x => (be 8 x, Ok tt)
  | VFloat x => (be 4 x, Ok tt)
  | VInt x => (be 4 (to_unsigned 32 x), Ok tt)
  | VLong x => (be 8 (to_unsigned 64 x), Ok tt)
  | VShort x => (be 2 (to_unsigned 16 x), Ok tt)
  | VString x => (write_string_value x, Ok tt)
  | VNone => ([], Ok tt)
  end.
(* src/write/dc_sink.rs:168-188 *)
Fixpoint write_values (vs : list fvalue) : bytes * res unit :=
  match vs with
  | [] => ([], Ok tt)
  | v :: t =>
      let (w, o) := write_value v in
      match o with
      | Ok _ => let (w', o') := write_values t in (w ++ w', o')
      | e => (w, e)
      end
  end.

(* src/write/dc_sink.rs:138-190 write_row *)
Definition dc_write_row (bitset_bytes : nat) (r : row) : bytes * res unit :=
  let (w, o) := write_values (vals r) in
  (be 8 (ts r) ++ write_bitset bitset_bytes (vals r) ++ w, o).

(** The sink as the driver sees it (chopper.rs:27-45): write_row leaves the row in place. *)
Definition dc_sink (bitset_bytes : nat) : sink :=
  {| sk_write := fun _ r => let* _ := snd (dc_write_row bitset_bytes r) in Ok [r];
     sk_flush := default_flush |}.
Definition dc_header_sink : header_sink := fun h =>
  let* n := snd (dc_process_header h) in Ok (h, dc_sink n).

(** The bytes of the file after the header and the calls [evs]. *)
Fixpoint dc_rows_bytes (bitset_bytes : nat) (evs : list event) : bytes :=
  match evs with
  | [] => []
  | EvRow r :: t => fst (dc_write_row bitset_bytes r) ++ dc_rows_bytes bitset_bytes t
  | EvFlush :: t => dc_rows_bytes bitset_bytes t
  end.
Definition dc_file (h : header) (evs : list event) : bytes :=
  fst (dc_process_header h) ++
  match snd (dc_process_header h) with Ok n => dc_rows_bytes n evs | _ => [] end.

(** ** Reader *)

(* [String::from_utf8(..).unwrap()] *)
Definition utf8_unwrap (s : bytes) : res bytes := if utf8 s then Ok s else Panic.

(* src/util/dc_util.rs:106-113 get_sized_string *)
Definition get_sized_string : rd bytes :=
  let! size := read_be 4 in
  let! s := take_exact size in
  lift (utf8_unwrap s).

(* src/util/dc_util.rs:71-92 FieldDescriptor::new; the display hint is only validated *)
Definition read_descriptor : rd (bytes * bytes) :=
  let! name := get_sized_string in
  let! ty := get_sized_string in
  let! hint := read_be 4 in
  if ((-1 <=? to_signed 32 hint) && (to_signed 32 hint <=? 6))%Z
  then ret (name, ty)
  else lift (Err (ECustom "unexpected display hint value")).

(* src/source/dc_source.rs:61-76 the loop over the fields *)
Fixpoint read_descriptors (count i : nat) : rd (list bytes * list ftype) :=
  match count with
  | O => ret ([], [])
  | S count' =>
      let! (name, ty) := read_descriptor in
      let name' := match name with [] => b "col_" ++ dec (N.of_nat i) | _ => name end in
      let! t := lift (unwrap (type_of_string ty)) in
      let! (names, types) := read_descriptors count' (S i) in
      ret (name' :: names, t :: types)
  end.

(** The reader's state: header, bitmap size and what is left of the stream.  current_row is
    rewritten completely before a row is returned. *)
Record dc_source := { dc_header : header; dc_bitset : nat; dc_rest : stream }.

(* src/source/dc_source.rs:27-95 DCSource::new *)
Definition dc_open (s : stream) : res dc_source :=
  let* (x, rest) :=
    (let! magic := read_be 8 in
     let! _ := lift (if (magic =? MAGIC_NUM)%N then Ok tt else Err (ECustom "DCReader -- wrong magic number")) in
     let! version := read_be 2 in
     let! _ := lift (if (version =? VERSION)%N then Ok tt else Err (ECustom "DCReader -- wrong version")) in
     let! user := read_be 4 in
     let! _ := take_exact user in
     let! count := read_be 4 in
     let! n := lift (get_bitset_bytes (N.to_nat count)) in
     let! (names, types) := read_descriptors (N.to_nat count) 0 in
     ret ({| h_names := names; h_types := types |}, n)) s in
  let (h, n) := x in
  Ok {| dc_header := h; dc_bitset := n; dc_rest := rest |}.

(* src/source/dc_source.rs:162-173 read_string *)
Definition read_string : rd bytes :=
  let! short := read_be 2 in
  let! size := if (to_signed 16 short =? -1)%Z then read_be 4
               else ret (to_unsigned 32 (to_signed 16 short)) in
  let! s := take_exact size in
  lift (utf8_unwrap s).

(* src/source/dc_source.rs:116-147 one non-null value *)
Definition read_value (t : ftype) : rd fvalue :=
  match t with
  | TBoolean => lift (Err (ECustom "DCReader -- boolean field type is not supported"))
  | TByte => let! x := read_be 1 in ret (VByte x)
  | TByteBuf => lift (Err (ECustom "DCReader -- ByteBuffer field type is not supported"))
  | TChar => let! x := read_be 2 in ret (VChar x)
  | TDouble => let! x := read_be 8 in ret (VDouble x)
  | TFloat => let! x := read_be 4 in ret (VFloat x)
  | TInt => let! x := read_be 4 in ret (VInt (to_signed 32 x))
  | TLong => let! x := read_be 8 in ret (VLong (to_signed 64 x))
  | TShort => let! x := read_be 2 in ret (VShort (to_signed 16 x))
  | TString => let! x := read_string in ret (VString x)
  end.

(* src/source/dc_source.rs:112-157 the fields of one bitset byte: [k] iterations left;
   returns the values and the types of the fields not reached *)
Fixpoint read_byte_fields (k : nat) (cur : N) (types : list ftype) : rd (list fvalue * list ftype) :=
  match k with
  | O => ret ([], types)
  | S k' =>
      match types with
      | [] => lift Panic                                       (* :113 index out of range *)
      | t :: types' =>
          let! v := if N.odd cur then ret VNone else read_value t in
          match types' with
          | [] => ret ([v], [])                                (* :153-155 break *)
          | _ =>
              let! (vs, rest) := read_byte_fields k' (cur / 2) types' in
              ret (v :: vs, rest)
          end
      end
  end.
(* src/source/dc_source.rs:110-158 *)
Fixpoint read_fields (bitset : bytes) (types : list ftype) : rd (list fvalue) :=
  match bitset with
  | [] => ret []
  | x :: bitset' =>
      let! (vs, rest) := read_byte_fields 8 (of_byte x) types in
      let! vs' := read_fields bitset' rest in
      ret (vs ++ vs')
  end.

(* src/source/dc_source.rs:103-159: next_row after the timestamp *)
Definition read_row (n : nat) (types : list ftype) (t : N) : rd row :=
  let! bitset := take_exact (N.of_nat n) in
  let! vs := read_fields bitset types in
  ret {| ts := t; vals := vs |}.

(* src/source/dc_source.rs:97-160 next_row: any failure to read the timestamp is the end
   of the data (:98-101).  After that the reader has nothing left. *)
Definition dc_next_row (st : dc_source) : res (option row * dc_source) :=
  match read_be 8 (dc_rest st) with
  | Ok (t, s1) =>
      let* (r, s2) := read_row (dc_bitset st) (h_types (dc_header st)) t s1 in
      Ok (Some r, {| dc_header := dc_header st; dc_bitset := dc_bitset st; dc_rest := s2 |})
  | _ => Ok (None, {| dc_header := dc_header st; dc_bitset := dc_bitset st;
                      dc_rest := {| s_data := []; s_tail := s_tail (dc_rest st) |} |})
  end.

(** Reading rows until the end or a failure: the rows and how it ended ([Ok tt]: next_row
    answered Ok(None)). [fuel] bounds the number of rows, see C25. *)
Fixpoint dc_read_rows (fuel : nat) (st : dc_source) : list row * res unit :=
  match fuel with
  | O => ([], NoFuel)
  | S f =>
      match dc_next_row st with
      | Ok (Some r, st') => let (rs, o) := dc_read_rows f st' in (r :: rs, o)
      | Ok (None, _) => ([], Ok tt)
      | e => ([], fail_as e)
      end
  end.
Definition dc_fuel (s : stream) : nat := S (length (s_data s)).
Definition dc_rows (st : dc_source) : list row * res unit := dc_read_rows (dc_fuel (dc_rest st)) st.

(** Opening and reading a whole file. *)
Definition dc_read (s : stream) : res (header * (list row * res unit)) :=
  let* st := dc_open s in Ok (dc_header st, dc_rows st).

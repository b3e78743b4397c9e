(** Model of util/dcgen: the program that writes an example DC file. *)
From Verif Require Export WriterModel.

(** A call on the file: [write_all] (what byteorder's write_u16, write_u32 … do) or a single
    [write], whose count of taken bytes the program throws away.  Both are unwrapped. *)
Inductive call := All (bs : bytes) | Once (bs : bytes).
Definition called (c : call) : bytes := match c with All bs => bs | Once bs => bs end.
(* Result::unwrap on every call; Write::write_all on a File loops like BufWriter::flush_buf *)
Definition do_call (c : call) (o : outer) : res unit * outer :=
  match c with
  | All bs => let (r, w) := pour (length bs) bs o in (match r with Ok _ => Ok tt | _ => Panic end, bw_out w)
  | Once bs => let (r, o') := outer_write bs o in (match r with Ok _ => Ok tt | _ => Panic end, o')
  end.
Fixpoint do_calls (cs : list call) (o : outer) : res unit * outer :=
  match cs with
  | [] => (Ok tt, o)
  | c :: t => match do_call c o with
              | (Ok _, o') => do_calls t o'
              | (e, o') => (e, o')
              end
  end.

(* [timestamp as f64] (util/dcgen/src/main.rs:105): the bit pattern of the nearest double,
   ties to the even one *)
Definition f64_of_u64 (t : N) : N :=
  if (t =? 0)%N then 0%N
  else let k := N.log2 t in
       let m := if (k <=? 52)%N then (t * 2 ^ (52 - k))%N
                else let s := (k - 52)%N in
                     let q := (t / 2 ^ s)%N in
                     let r := (t mod 2 ^ s)%N in
                     if ((2 ^ s <? 2 * r) || ((2 * r =? 2 ^ s) && N.odd q))%N then (q + 1)%N else q in
       ((1023 + k) * 2 ^ 52 + (m - 2 ^ 52))%N.

(* util/dcgen/src/main.rs:78-82 write_sized_string *)
Definition gen_sized (s : bytes) : list call := [All (be 4 (N.of_nat (length s))); Once s].
(* util/dcgen/src/main.rs:22-31, 69-76 FieldType, write_field_type *)
Inductive gen_type := GDouble | GInt | GString.
Definition gen_type_string (t : gen_type) : bytes :=
  match t with GDouble => b "D" | GInt => b "I" | GString => b "Ljava.lang.String;" end.
(* util/dcgen/src/main.rs:28-31, 84-90 DisplayHint, write_field_display_hint *)
Definition gen_hint (timestamp : bool) : list call := [All (be 4 (to_unsigned 32 (if timestamp then 0 else -1)))].
(* util/dcgen/src/main.rs:63-67 write_field_descriptor *)
Definition gen_descriptor (name : bytes) (t : gen_type) (timestamp : bool) : list call :=
  gen_sized name ++ gen_sized (gen_type_string t) ++ gen_hint timestamp.
(* util/dcgen/src/main.rs:54-61 write_field_descriptors *)
Definition gen_descriptors : list call :=
  [All (be 4 4)] ++ gen_descriptor (b "a_double") GDouble false ++ gen_descriptor (b "an_int") GInt false ++
  gen_descriptor (b "an_int_timestamp") GInt true ++ gen_descriptor (b "a_string") GString false.
(* util/dcgen/src/main.rs:45-46 write_magic, write_version *)
Definition gen_magic : list call := [All (be 8 0x44434154); All (be 2 2)].
(* util/dcgen/src/main.rs:48-52 write_user_header *)
Definition gen_user_header : list call := let u := b "example" in [All (be 4 (N.of_nat (length u))); Once u].
(* util/dcgen/src/main.rs:117-126 write_string_value *)
Definition gen_string (s : bytes) : list call :=
  (if (N.of_nat (length s) <=? 32767)%N
   then [All (be 2 (N.of_nat (length s)))]
   else [All (be 2 (to_unsigned 16 (-1))); All (be 4 (N.of_nat (length s)))]) ++ [Once s].
(* util/dcgen/src/main.rs:111-115 write_row_bitfield_with_no_nulls *)
Definition gen_bitfield (field_count : nat) : list call := [Once (repeat (byte_of 0) (1 + (field_count - 1) / 8))].
(* util/dcgen/src/main.rs:99-109 write_row; [timestamp as u32] keeps the low 32 bits *)
Definition gen_row (t : N) : list call :=
  [All (be 8 t)] ++ gen_bitfield 4 ++
  [All (be 8 (f64_of_u64 t)); All (be 4 (t mod 2 ^ 32)); All (be 4 (t mod 2 ^ 32))] ++ gen_string (dec t).
(* util/dcgen/src/main.rs:92-97 write_rows; [row_count] is 100 there *)
Definition gen_rows (row_count : nat) : list call := flat_map (fun i => gen_row (N.of_nat i)) (seq 0 row_count).
(* util/dcgen/src/main.rs:33-43 write_dc, write_header *)
Definition gen_calls (row_count : nat) : list call :=
  gen_magic ++ gen_user_header ++ gen_descriptors ++ gen_rows row_count.
(* util/dcgen/src/main.rs:9-20 main, once the file is created: how it ends and what the file gets *)
Definition dcgen (row_count : nat) (o : outer) : res unit * outer := do_calls (gen_calls row_count) o.

(** Model of src/util/csv_util.rs, with the std functions on str it uses. *)
From Verif Require Export TypesModel BytesModel MultiModel.

(** A Rust char is its code point. *)
Definition text := list N.

(** [str::chars] on valid UTF-8 (what is done with other bytes is irrelevant). *)
Definition low6 (a : byte) : N := (of_byte a mod 64)%N.
Fixpoint chars (s : bytes) : text :=
  match s with
  | [] => []
  | a :: t =>
      if (of_byte a <? 0x80)%N then of_byte a :: chars t
      else if (of_byte a <? 0xE0)%N then
        match t with
        | c1 :: t1 => ((of_byte a - 0xC0) * 64 + low6 c1)%N :: chars t1
        | _ => []
        end
      else if (of_byte a <? 0xF0)%N then
        match t with
        | c1 :: c2 :: t2 => ((of_byte a - 0xE0) * 4096 + low6 c1 * 64 + low6 c2)%N :: chars t2
        | _ => []
        end
      else
        match t with
        | c1 :: c2 :: c3 :: t3 =>
            ((of_byte a - 0xF0) * 262144 + low6 c1 * 4096 + low6 c2 * 64 + low6 c3)%N :: chars t3
        | _ => []
        end
  end.

(* src/util/csv_util.rs:5-27 parse_into_delimiter; [s.len()] counts bytes *)
Definition parse_into_delimiter (s : bytes) : res byte :=
  if bytes_eqb s (b "\t") then Ok (byte_of 9)
  else
    match s with
    | [c] => if (of_byte c <? 0x80)%N then Ok c
             else Err (ECustom "Error: specified delimiter is not an ASCII character.")
    | _ => Err (ECustom "Error: specified delimiter is not a single ASCII character.")
    end.

(* src/util/csv_util.rs:32-40 the counts: [c as u8] keeps the low 8 bits of the code point *)
Definition delim_count (row : bytes) (d : byte) : nat :=
  length (filter (fun c => (c mod 256 =? of_byte d)%N) (chars row)).
(* src/util/csv_util.rs:29-46 guess_delimiter: descending stable sort, first element *)
Definition guess_delimiter (row : bytes) (possible : list byte) : res byte :=
  match possible with
  | [] => Panic
  | _ => unwrap (hd_error (sort_by (fun a c => match delim_count row c ?= delim_count row a with
                                              | Gt => true | _ => false end) possible))
  end.

(** ** Parsing numbers: core::num *)

Definition is_digit (c : N) : bool := (48 <=? c)%N && (c <=? 57)%N.
(** Digits to a number, from the left; [None] on any other character. *)
Fixpoint digits_val (acc : N) (s : text) : option N :=
  match s with
  | [] => Some acc
  | c :: t => if is_digit c then digits_val (acc * 10 + (c - 48))%N t else None
  end.
Definition digits1 (s : text) : option N := match s with [] => None | _ => digits_val 0 s end.
(* u64::from_str: an optional '+', then at least one digit, then a range check *)
Definition skip_plus (s : text) : text :=
  match s with
  | c :: t => if (c =? 43)%N then t else s
  | [] => s
  end.
Definition parse_u64 (s : text) : option N :=
  match digits1 (skip_plus s) with
  | Some n => if (n <? 2 ^ 64)%N then Some n else None
  | None => None
  end.
(* i64::from_str: an optional '+' or '-' *)
Definition is_minus (s : text) : bool := match s with c :: _ => (c =? 45)%N | [] => false end.
Definition parse_i64 (s : text) : option Z :=
  if is_minus s then
    match digits1 (tl s) with
    | Some n => if (n <=? 2 ^ 63)%N then Some (- Z.of_N n)%Z else None
    | None => None
    end
  else
    match digits1 (skip_plus s) with
    | Some n => if (n <? 2 ^ 63)%N then Some (Z.of_N n) else None
    | None => None
    end.

(** ** Splitting and trimming: core::str *)

Fixpoint split_on (d : N) (s : text) : list text :=
  match s with
  | [] => [[]]
  | c :: t =>
      if (c =? d)%N then [] :: split_on d t
      else match split_on d t with
           | x :: r => (c :: x) :: r
           | [] => [[c]]
           end
  end.
(* char::is_whitespace: Unicode White_Space *)
Definition is_whitespace (c : N) : bool :=
  ((9 <=? c) && (c <=? 13) || (c =? 32) || (c =? 0x85) || (c =? 0xA0) || (c =? 0x1680)
   || ((0x2000 <=? c) && (c <=? 0x200A)) || (c =? 0x2028) || (c =? 0x2029) || (c =? 0x202F)
   || (c =? 0x205F) || (c =? 0x3000))%N.
Fixpoint trim_start (s : text) : text :=
  match s with
  | c :: t => if is_whitespace c then trim_start t else s
  | [] => []
  end.
Definition trim (s : text) : text := rev (trim_start (rev (trim_start s))).

Section Guess.
(** [f64::from_str(s).is_ok()] *)
Variable parse_f64_ok : text -> bool.

(* src/util/csv_util.rs:109-118 guess_type *)
Definition guess_type (s : text) : ftype :=
  match parse_i64 s with
  | Some _ => TLong
  | None => if parse_f64_ok s then TDouble else TString
  end.

(* src/util/csv_util.rs:48-72 guess_has_header; the delimiter is ASCII
   (parse_into_delimiter or DELIMITERS), so [delimiter as char] is its code point *)
Definition line_types (line : bytes) (d : byte) : list ftype :=
  map (fun s => guess_type (trim s)) (split_on (of_byte d) (chars line)).
Definition guess_has_header (line1 line2 : option bytes) (d : byte) : bool :=
  match line1 with
  | None => false
  | Some l1 =>
      match line2 with
      | None => false
      | Some l2 => negb (list_eqb ftype_eqb (line_types l1 d) (line_types l2 d))
      end
  end.
End Guess.

(* src/util/csv_util.rs:97-107 type_upconvert *)
Definition type_upconvert (t : ftype) : ftype :=
  match t with
  | TBoolean | TByteBuf | TString => TString
  | TByte | TChar | TShort | TInt | TLong => TLong
  | TFloat | TDouble => TDouble
  end.
(* src/util/csv_util.rs:74-95 guess_common_type *)
Fixpoint common_loop (l : list ftype) (guess : ftype) : ftype :=
  match l with
  | [] => guess
  | t :: l' =>
      if ftype_eqb guess TString then guess
      else match type_upconvert t with
           | TDouble => common_loop l' TDouble
           | TLong => common_loop l' guess
           | _ => TString
           end
  end.
Definition guess_common_type (l : list ftype) : ftype :=
  match l with
  | [] => TString
  | t :: _ => common_loop l (type_upconvert t)
  end.

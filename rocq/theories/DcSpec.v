(** Specification vocabulary for DC files (C20-C26). *)
From Verif Require Export DcModel.

Definition supported (t : ftype) : Prop := t <> TBoolean /\ t <> TByteBuf.

(** Strings that a DC file can hold: Rust strings (UTF-8) below 4 GiB. *)
Definition dc_string (s : bytes) : Prop := utf8 s = true /\ (N.of_nat (length s) < 2 ^ 32)%N.

(** Value [v] is null or a value of type [t]. *)
Definition value_fits (t : ftype) (v : fvalue) : Prop :=
  match t, v with
  | _, VNone => True
  | TByte, VByte x => (x < 2 ^ 8)%N
  | TChar, VChar x => (x < 2 ^ 16)%N
  | TDouble, VDouble x => (x < 2 ^ 64)%N
  | TFloat, VFloat x => (x < 2 ^ 32)%N
  | TInt, VInt x => (- 2 ^ 31 <= x < 2 ^ 31)%Z
  | TLong, VLong x => (- 2 ^ 63 <= x < 2 ^ 63)%Z
  | TShort, VShort x => (- 2 ^ 15 <= x < 2 ^ 15)%Z
  | TString, VString s => dc_string s
  | _, _ => False
  end.

(** A header DCSink accepts, and rows that match it. *)
Definition header_fits (h : header) : Prop :=
  length (h_names h) = length (h_types h) /\ Forall supported (h_types h) /\
  Forall dc_string (h_names h) /\ (N.of_nat (length (h_types h)) < 2 ^ 32)%N.
Definition row_fits (h : header) (r : row) : Prop :=
  (ts r < 2 ^ 64)%N /\ Forall2 value_fits (h_types h) (vals r).

(** Empty names are replaced by col_0, col_1, … *)
Fixpoint default_names (i : nat) (names : list bytes) : list bytes :=
  match names with
  | [] => []
  | nm :: t => match nm with [] => b "col_" ++ dec (N.of_nat i) | _ => nm end
               :: default_names (S i) t
  end.
Definition with_default_names (h : header) : header :=
  {| h_names := default_names 0 (h_names h); h_types := h_types h |}.

(** A complete file, and one cut off or failing. *)
Definition file (d : bytes) : stream := {| s_data := d; s_tail := None |}.
(** [s] continued by [d] and then [tl]. *)
Definition continued (s : stream) (d : bytes) (tl : option ioerr) : stream :=
  {| s_data := s_data s ++ d; s_tail := tl |}.
Definition dc_continued (st : dc_source) (d : bytes) (tl : option ioerr) : dc_source :=
  {| dc_header := dc_header st; dc_bitset := dc_bitset st; dc_rest := continued (dc_rest st) d tl |}.

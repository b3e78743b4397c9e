(** Model of src/filter/*.rs and src/util/remove_multiple.rs. *)
From Verif Require Export TypesModel.

(* u8::to_ascii_lowercase *)
Definition ascii_lower (a : ascii) : ascii :=
  let n := N_of_ascii a in
  if ((65 <=? n) && (n <=? 90))%N then ascii_of_N (n + 32) else a.

(* str::eq_ignore_ascii_case *)
Definition eq_ignore_ascii_case (x y : bytes) : bool :=
  bytes_eqb (map ascii_lower x) (map ascii_lower y).

(* The search loops at src/filter/row_filter_equal_value.rs:27-39,
   row_filter_greater_value.rs:29-41, column_filter_delete_col.rs:24-36. *)
Fixpoint find_column (names : list bytes) (name : bytes) (i : nat) : option nat :=
  match names with
  | [] => None
  | n :: t => if eq_ignore_ascii_case n name then Some i else find_column t name (S i)
  end.

(* src/filter/row_filter_equal_value.rs:48-61  write_row *)
Definition equal_write (i : nat) (value : fvalue) (_ : list event) (r : row) : res (list row) :=
  let* v := unwrap (nth_error (vals r) i) in
  let* e := fv_eq v value in
  if negb e then Ok [] else Ok [r].

(* src/filter/row_filter_equal_value.rs:27-44  process_header *)
Definition row_filter_equal (name : bytes) (value : fvalue) : header_sink := fun h =>
  match find_column (h_names h) name 0 with
  | Some i => Ok (h, {| sk_write := equal_write i value; sk_flush := default_flush |})
  | None => Err (ECustom "RowFilterEqualValueConfig -- field name not found")
  end.

(* src/filter/row_filter_greater_value.rs:50-63  write_row *)
Definition greater_write (i : nat) (value : fvalue) (_ : list event) (r : row) : res (list row) :=
  let* v := unwrap (nth_error (vals r) i) in
  let* o := fv_partial_cmp v value in
  match o with
  | Some Gt => Ok [r]
  | _ => Ok []
  end.

(* src/filter/row_filter_greater_value.rs:29-46  process_header *)
Definition row_filter_greater (name : bytes) (value : fvalue) : header_sink := fun h =>
  match find_column (h_names h) name 0 with
  | Some i => Ok (h, {| sk_write := greater_write i value; sk_flush := default_flush |})
  | None => Err (ECustom "RowFilterGreaterValueConfig -- field name not found")
  end.

(* src/filter/column_filter_delete_col.rs:46-50  write_row *)
Definition delete_write (i : nat) (_ : list event) (r : row) : res (list row) :=
  let* vs := list_remove i (vals r) in
  Ok [{| ts := ts r; vals := vs |}].

(* src/filter/column_filter_delete_col.rs:24-42  process_header *)
Definition column_filter_delete (name : bytes) : header_sink := fun h =>
  match find_column (h_names h) name 0 with
  | Some i =>
      let* ns := list_remove i (h_names h) in
      let* tys := list_remove i (h_types h) in
      Ok ({| h_names := ns; h_types := tys |},
          {| sk_write := delete_write i; sk_flush := default_flush |})
  | None => Err (ECustom "ColumnFilterDeleteConfig -- field name not found")
  end.

(** ** remove_multiple *)

(* slice::rotate_left(k): panics when k > len *)
Definition rotate_left {A} (k : nat) (l : list A) : res (list A) :=
  if length l <? k then Panic else Ok (skipn k l ++ firstn k l).

(* [slice[a..e].rotate_left(k)]: panics unless a <= e <= len *)
Definition rotate_range {A} (a e k : nat) (l : list A) : res (list A) :=
  if (e <? a) || (length l <? e) then Panic
  else
    let* mid := rotate_left k (firstn (e - a) (skipn a l)) in
    Ok (firstn a l ++ mid ++ skipn e l).

(* src/util/remove_multiple.rs:19-23  the loop over indices[1..].
   [prev_index - (removed_count - 1)] underflows (panics) when negative. *)
Fixpoint rm_loop {A} (idx : list nat) (prev removed : nat) (s : list A)
  : res (nat * nat * list A) :=
  match idx with
  | [] => Ok (prev, removed, s)
  | cur :: idx' =>
      if prev <? removed - 1 then Panic
      else
        let* s' := rotate_range (prev - (removed - 1)) cur removed s in
        rm_loop idx' cur (removed + 1) s'
  end.

(* src/util/remove_multiple.rs:9-28  remove_multiple *)
Definition remove_multiple {A} (indices : list nat) (l : list A) : res (list A) :=
  match indices with
  | [] => Ok l
  | i0 :: rest =>
      let* (p, s) := rm_loop rest i0 1 l in
      let '(prev, removed) := p in
      if prev <? removed - 1 then Panic
      else
        let* s' := rotate_range (prev - (removed - 1)) (length s) removed s in
        if length s' <? removed then Panic
        else Ok (firstn (length s' - removed) s')
  end.

(** Specification of multi-file input, independent of the model's helpers. *)
From Verif Require Export MultiModel.
From Coq Require Export Permutation Sorted.

(** A header describes as many types as names. *)
Definition header_wf (h : header) : Prop := length (h_types h) = length (h_names h).

(** [pick] says which column of a file feeds each column of the common header: same name,
    same type, no file column used twice. *)
Record picks_columns (common file : header) (pick : list nat) : Prop := {
  pc_len : length pick = length (h_names common);
  pc_once : NoDup pick;
  pc_ok : forall j k, nth_error pick j = Some k ->
    k < length (h_names file) /\
    nth_error (h_names file) k = nth_error (h_names common) j /\
    nth_error (h_types file) k = nth_error (h_types common) j
}.

(** Row [r'] carries, at the columns of the common header, the values of the picked columns
    of [r]. *)
Definition realigned (pick : list nat) (r r' : row) : Prop :=
  ts r' = ts r /\
  forall j k, nth_error pick j = Some k -> nth_error (vals r') j = nth_error (vals r) k.

(** The file's columns start with exactly the common header's. *)
Definition extends (common file : header) : Prop :=
  firstn (length (h_names common)) (h_names file) = h_names common /\
  firstn (length (h_names common)) (h_types file) = h_types common.

(** The file has every common column, as many times as the common header has that name, ... *)
Definition has_columns (common file : header) : Prop :=
  forall name, count_occ bytes_eq_dec (h_names common) name <= count_occ bytes_eq_dec (h_names file) name.
(** ... and columns of the same name have the same type in both. *)
Definition types_agree (common file : header) : Prop :=
  forall j k name, nth_error (h_names common) j = Some name -> nth_error (h_names file) k = Some name ->
    nth_error (h_types file) k = nth_error (h_types common) j.

Definition path_le (x y : bytes) : Prop := path_cmp x y <> Gt.

(** What reading a list of files one after the other should deliver: [serial common files out],
    where a file is the outcome of opening it and [out] the results of successive next_row
    calls up to the end of the data or the first failure. *)
Definition full_rows (h : header) (rows : list row) : Prop :=
  Forall (fun r => length (vals r) = length (h_names h)) rows.
Inductive serial (common : header) : list (res (option (header * source))) -> list (res row) -> Prop :=
| serial_end : serial common [] []
| serial_file h rows rows' pick files out :
    picks_columns common h pick ->
    Forall2 (realigned pick) rows rows' ->
    serial common files out ->
    serial common (Ok (Some (h, map Ok rows)) :: files) (map Ok rows' ++ out)
| serial_row_fails h rows rows' e rest pick files :
    picks_columns common h pick ->
    Forall2 (realigned pick) rows rows' -> is_ok e = false ->
    serial common (Ok (Some (h, map Ok rows ++ e :: rest)) :: files) (map Ok rows' ++ [e])
| serial_rejected h s e files :
    ~ (has_columns common h /\ types_agree common h) ->
    serial common (Ok (Some (h, s)) :: files) [Err e]
| serial_no_source e files : serial common (Ok None :: files) [Err e]
| serial_open_fails r files : is_ok r = false -> serial common (r :: files) [fail_as r].

(** Sources whose rows are as wide as their header says. *)
Definition source_wf (f : res (option (header * source))) : Prop :=
  match f with
  | Ok (Some (h, s)) => header_wf h /\
      Forall (fun x => match x with Ok r => length (vals r) = length (h_names h) | _ => True end) s
  | _ => True
  end.

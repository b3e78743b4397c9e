(** Property theorems: filters, value comparison, remove_multiple (C16-C19, C52). *)
From Coq Require Import Sorting.Sorted.
From Verif Require Import FilterProofs.

(** C16: a column is either the first named one or there is none; unknown columns are
    rejected; the header is unchanged; matching rows pass unchanged, others are dropped.
    (Boolean/ByteBuf comparisons exit, a row too short for the column panics.) *)
Theorem C16_equal_filter : forall name v h,
  ((exists i, first_named (h_names h) name i) \/ none_named (h_names h) name) /\
  (none_named (h_names h) name -> is_err (row_filter_equal name v h) = true) /\
  (forall i, first_named (h_names h) name i ->
     exists sk, row_filter_equal name v h = Ok (h, sk) /\
       (forall past, sk_flush sk past = Ok tt) /\
       (forall past r x, nth_error (vals r) i = Some x ->
          ~ (type_of x = type_of v /\ (type_of x = Some TBoolean \/ type_of x = Some TByteBuf)) ->
          (val_eq x v -> sk_write sk past r = Ok [r]) /\
          (~ val_eq x v -> sk_write sk past r = Ok [])) /\
       (forall past r x, nth_error (vals r) i = Some x ->
          type_of x = type_of v -> (type_of x = Some TBoolean \/ type_of x = Some TByteBuf) ->
          sk_write sk past r = Exit) /\
       (forall past r, nth_error (vals r) i = None -> sk_write sk past r = Panic)).
Proof. exact (fun name v h => conj (first_or_none _ _) (equal_filter_full name v h)). Qed.
Print Assumptions C16_equal_filter.

(** C17 *)
Theorem C17_greater_filter : forall name v h,
  ((exists i, first_named (h_names h) name i) \/ none_named (h_names h) name) /\
  (none_named (h_names h) name -> is_err (row_filter_greater name v h) = true) /\
  (forall i, first_named (h_names h) name i ->
     exists sk, row_filter_greater name v h = Ok (h, sk) /\
       (forall past, sk_flush sk past = Ok tt) /\
       (forall past r x, nth_error (vals r) i = Some x -> comparable x v ->
          (val_lt v x -> sk_write sk past r = Ok [r]) /\
          (~ val_lt v x -> sk_write sk past r = Ok [])) /\
       (forall past r x, nth_error (vals r) i = Some x -> ~ comparable x v ->
          sk_write sk past r = Exit) /\
       (forall past r, nth_error (vals r) i = None -> sk_write sk past r = Panic)).
Proof. exact (fun name v h => conj (first_or_none _ _) (greater_filter_full name v h)). Qed.
Print Assumptions C17_greater_filter.

(** C18 *)
Theorem C18_delete_column : forall name h,
  ((exists i, first_named (h_names h) name i) \/ none_named (h_names h) name) /\
  (none_named (h_names h) name -> is_err (column_filter_delete name h) = true) /\
  (forall i, first_named (h_names h) name i -> length (h_types h) = length (h_names h) ->
     exists h' sk, column_filter_delete name h = Ok (h', sk) /\
       without i (h_names h) (h_names h') /\ without i (h_types h) (h_types h') /\
       (forall past, sk_flush sk past = Ok tt) /\
       (forall past r, i < length (vals r) ->
          exists r', sk_write sk past r = Ok [r'] /\ ts r' = ts r /\
                     without i (vals r) (vals r')) /\
       (forall past r, length (vals r) <= i -> sk_write sk past r = Panic)).
Proof. exact (fun name h => conj (first_or_none _ _) (delete_filter_full name h)). Qed.
Print Assumptions C18_delete_column.

(** C19 *)
Theorem C19_comparison_coherent :
  (forall x, comparable x x -> ~ is_nan_value x -> fv_eq x x = Ok true) /\
  (forall x y, fv_eq x y = Ok true -> fv_eq y x = Ok true) /\
  (forall x y z, fv_eq x y = Ok true -> fv_eq y z = Ok true -> fv_eq x z = Ok true) /\
  (forall x y, fv_partial_cmp x y = Ok (Some Eq) <-> fv_eq x y = Ok true) /\
  (forall x y, fv_partial_cmp x y = Ok (Some Lt) <-> fv_partial_cmp y x = Ok (Some Gt)) /\
  (forall x y z, fv_partial_cmp x y = Ok (Some Lt) -> fv_partial_cmp y z = Ok (Some Lt) ->
     fv_partial_cmp x z = Ok (Some Lt)) /\
  (forall x y, comparable x y -> ~ is_nan_value x -> ~ is_nan_value y ->
     exists o, fv_partial_cmp x y = Ok (Some o)) /\
  (forall x y, is_nan_value x \/ is_nan_value y -> comparable x y ->
     fv_partial_cmp x y = Ok None /\ fv_eq x y = Ok false) /\
  (forall x y, comparable x y -> (fv_partial_cmp x y = Ok (Some Lt) <-> val_lt x y) /\
                                 (fv_eq x y = Ok true <-> val_eq x y)) /\
  (forall x y, ~ comparable x y -> fv_partial_cmp x y = Exit).
Proof. exact comparison_coherent. Qed.
Print Assumptions C19_comparison_coherent.

(** C52 *)
Theorem C52_remove_multiple : forall (A : Type) (idx : list nat) (l : list A),
  Sorted lt idx -> (forall i, In i idx -> i < length l) ->
  exists l', remove_multiple idx l = Ok l' /\
    length l' = length l - length idx /\
    forall keep, (forall i, keep i = true <-> ~ In i idx) -> l' = select keep 0 l.
Proof. exact @remove_multiple_select. Qed.
Print Assumptions C52_remove_multiple.

(** ** Non-vacuity *)

Definition ex_h : header :=
  {| h_names := [b "time"; b "Price"; b "price"]; h_types := [TLong; TDouble; TInt] |}.

Example ex_first_named : first_named (h_names ex_h) (b "PRICE") 1.
Proof. apply find_column_Some. reflexivity. Qed.
Example ex_none_named : none_named (h_names ex_h) (b "volume").
Proof. apply find_column_None. reflexivity. Qed.

(* 1.5 < 2.0; -0.0 = 0.0; the smallest subnormal is above 0; NaN is unordered *)
Example ex_double_lt : val_lt (VDouble 0x3FF8000000000000) (VDouble 0x4000000000000000).
Proof. vm_compute. reflexivity. Qed.
Example ex_double_zero : val_eq (VDouble 0x8000000000000000) (VDouble 0).
Proof. vm_compute. split; congruence. Qed.
Example ex_double_sub : val_lt (VDouble 0) (VDouble 1).
Proof. vm_compute. reflexivity. Qed.
Example ex_double_neg : val_lt (VDouble 0xFFF0000000000000) (VDouble 0x8000000000000001).
Proof. vm_compute. exact I. Qed.
Example ex_nan : is_nan_value (VDouble 0x7FF8000000000000).
Proof. vm_compute. reflexivity. Qed.
Example ex_float : double_of 0x3FF0000000000000 = FpFin (2 ^ 1074) /\
                   float_of 0x3F800000 = FpFin (2 ^ 149).
Proof. vm_compute. auto. Qed.
Example ex_string_lt : val_lt (VString (b "abc")) (VString (b "abd")).
Proof. right. exists (b "ab"), "c"%char, "d"%char, [], []. repeat split. Qed.

Example ex_greater :
  exists sk, row_filter_greater (b "PRICE") (VDouble 0x3FF8000000000000) ex_h = Ok (ex_h, sk) /\
    sk_write sk [] {| ts := 5%N; vals := [VLong 1; VDouble 0x4000000000000000; VInt 3] |} =
      Ok [{| ts := 5%N; vals := [VLong 1; VDouble 0x4000000000000000; VInt 3] |}] /\
    sk_write sk [] {| ts := 5%N; vals := [VLong 1; VDouble 0x3FF8000000000000; VInt 3] |} = Ok [].
Proof. eexists. split; [reflexivity|]. split; reflexivity. Qed.

Example ex_delete :
  exists h' sk, column_filter_delete (b "PRICE") ex_h = Ok (h', sk) /\
    h_names h' = [b "time"; b "price"] /\ h_types h' = [TLong; TInt] /\
    sk_write sk [] {| ts := 5%N; vals := [VLong 1; VNone; VInt 3] |} =
      Ok [{| ts := 5%N; vals := [VLong 1; VInt 3] |}].
Proof. eexists _, _. split; [reflexivity|]. repeat split. Qed.

Example ex_remove_multiple :
  Sorted lt [1; 2; 4] /\ remove_multiple [1; 2; 4] [10; 11; 12; 13; 14; 15] = Ok [10; 13; 15].
Proof. split; [repeat constructor|reflexivity]. Qed.

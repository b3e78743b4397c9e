(** The CSV stream of util/infistream: an endless sequence of rows, sent one by one. *)
From Verif Require Export BytesModel TimestampModel.
Local Open Scope nat_scope.

(* util/infistream/src/inficsv.rs:27 the row of the number [v]: itself, and six columns with a letter before it *)
Definition infi_row (v : N) : bytes :=
  dec v ++ b ",a" ++ dec v ++ b ",b" ++ dec v ++ b ",c" ++ dec v ++ b ",d" ++ dec v ++ b ",e" ++ dec v ++ b ",f" ++ dec v
  ++ [byte_of 10].
(* util/infistream/src/inficsv.rs:23-29 InfiCSV::poll: one row, and the counter (a u64; the addition panics in debug
   builds and wraps in release builds) goes up; there is always a row.  Simplified: polls are never pending. *)
Definition infi_poll (prof : profile) (v : N) : res (bytes * N) :=
  if (v + 1 <? 2 ^ 64)%N then Ok (infi_row v, (v + 1)%N)
  else match prof with Debug => Panic | Release => Ok (infi_row v, 0%N) end.
(* main.rs:33-36 the body is the rows in the order they are polled; [n] polls *)
Fixpoint infi_from (prof : profile) (n : nat) (v : N) : res bytes :=
  match n with
  | 0 => Ok []
  | S n' => let* (r, v') := infi_poll prof v in let* rest := infi_from prof n' v' in Ok (r ++ rest)
  end.
(* inficsv.rs:13-17 InfiCSV::new: the counter starts at 0 *)
Definition infi_body (prof : profile) (n : nat) : res bytes := infi_from prof n 0.

(** The compressed stream of util/infistream: the same rows, through a gzip encoder. *)
From Verif Require Export InfiModel.
Local Open Scope nat_scope.

(** flate2's GzEncoder<Vec<u8>>, a parameter: a state, and for each `write` of some bytes the number of them it took,
    what it appended to its vector, and the new state. *)
Definition encoder (E : Type) : Type := bytes -> E -> res (nat * bytes * E).

Section Gz.
Context {E : Type} (write : encoder E).
(* util/infistream/src/inficsvgz.rs:8-11 InfiCSVGZ; the encoder's vector is apart *)
Record infi_gz := { g_timestamp : N; g_encoder : E; g_vec : bytes }.
(* util/infistream/src/inficsvgz.rs:26-40 InfiCSVGZ::poll: the row is given to the encoder with one `write`, whose count
   is not looked at (an error panics: unwrap); the vector is sent and emptied *)
Definition infi_gz_poll (prof : profile) (g : infi_gz) : res (bytes * infi_gz) :=
  let* (row, v') := infi_poll prof (g_timestamp g) in
  match write row (g_encoder g) with
  | Ok (_, more, e') => Ok (g_vec g ++ more, {| g_timestamp := v'; g_encoder := e'; g_vec := [] |})
  | _ => Panic
  end.
(* main.rs:38-41 the body is what the polls give, in order *)
Fixpoint infi_gz_from (prof : profile) (n : nat) (g : infi_gz) : res bytes :=
  match n with
  | 0 => Ok []
  | S n' => let* (c, g') := infi_gz_poll prof g in let* rest := infi_gz_from prof n' g' in Ok (c ++ rest)
  end.
(* inficsvgz.rs:14-19 InfiCSVGZ::new *)
Definition infi_gz_body (prof : profile) (fresh : E) (n : nat) : res bytes :=
  infi_gz_from prof n {| g_timestamp := 0; g_encoder := fresh; g_vec := [] |}.
End Gz.

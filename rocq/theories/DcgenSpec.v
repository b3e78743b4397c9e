(** Specification vocabulary for the example file dcgen writes (C110). *)
From Verif Require Export DcSpec WriterModel.

(** Bit pattern [d] is the double whose value is exactly the number [t]: fraction bits below,
    exponent (excess 1075 counting the fraction as an integer) above them, sign 0. *)
Definition double_is (d t : N) : Prop :=
  d = 0%N /\ t = 0%N \/
  exists e f, (d = e * 2 ^ 52 + f /\ f < 2 ^ 52 /\ 0 < e < 2047 /\ (2 ^ 52 + f) * 2 ^ e = t * 2 ^ 1075)%N.

(** Row [t] of the example file. *)
Definition example_row (t : N) (r : row) : Prop :=
  ts r = t /\ exists d, double_is d t /\ vals r = [VDouble d; VInt (Z.of_N t); VInt (Z.of_N t); VString (dec t)].
Definition example_header : header :=
  {| h_names := [b "a_double"; b "an_int"; b "an_int_timestamp"; b "a_string"]; h_types := [TDouble; TInt; TInt; TString] |}.

(** No call takes fewer than [k] bytes when it is offered as many or more (it may still fail). *)
Definition takes (k : nat) (o : outer) : Prop :=
  Forall (fun s => match s with Accept n => k <= n | Refuse _ => True end) (o_plan o).

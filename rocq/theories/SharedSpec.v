(** Specification vocabulary for several outputs on standard output (C111). *)
From Verif Require Export BytesModel.

(** [mixed texts out]: [out] is put together from pieces of the [texts], taken from each in its
    order, nothing left out, added or repeated. *)
Inductive mixed : list bytes -> bytes -> Prop :=
| mixed_none n : mixed (repeat [] n) []
| mixed_more before t after out piece :
    mixed (before ++ t :: after) out -> mixed (before ++ (t ++ piece) :: after) (out ++ piece).

(** The lines of a text (the last one perhaps without its end). *)
Definition is_line (l text : bytes) : Prop :=
  exists x y, text = x ++ l ++ y /\ ~ In (byte_of 10) l /\
    (x = [] \/ exists x', x = x' ++ [byte_of 10]) /\ (y = [] \/ exists y', y = byte_of 10 :: y').

(** Gzip encoders and decoders (C139). *)
From Verif Require Export InfiGzModel InfiSpec.
Local Open Scope nat_scope.

Section Encoder.
Context {E : Type} (write : encoder E) (fresh : E) (gunzip : bytes -> bytes) (lag : nat).
(** The encoder has taken [taken] and put out [sent]. *)
Inductive encoded : bytes -> bytes -> E -> Prop :=
| encoded_nothing : encoded [] [] fresh
| encoded_more taken sent e x n more e' : encoded taken sent e -> write x e = Ok (n, more, e') ->
    encoded (taken ++ firstn n x) (sent ++ more) e'.
(** It can be decoded: what is there so far decompresses to a beginning of what was taken, all but the last [lag] bytes. *)
Definition decodable : Prop := forall taken sent e, encoded taken sent e ->
  exists k, gunzip sent = firstn k taken /\ length taken <= length (gunzip sent) + lag.
(** It takes all it is given. *)
Definition greedy : Prop := forall taken sent e x n more e', encoded taken sent e -> write x e = Ok (n, more, e') -> n = length x.
End Encoder.

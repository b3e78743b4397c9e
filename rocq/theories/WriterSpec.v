(** Specification vocabulary for writers (C80). *)
From Verif Require Export WriterModel DriverSpec.

(** A writer that never refuses and always takes something: only its pace varies. *)
Definition willing (o : outer) : Prop :=
  o_end o = None /\ Forall (fun s => exists k, s = Accept (S k)) (o_plan o).
(** Pieces make up the whole. *)
Definition cuts (cut : option row -> bytes -> list bytes) : Prop := forall what bs, concat (cut what bs) = bs.

(** Specification: reading a text piece by piece (C101). *)
From Verif Require Export ZstModel.

(** The pieces obtained from a text that is there, with buffers of the given sizes. *)
Fixpoint pieces (text : bytes) (lens : list nat) : list bytes :=
  match lens with
  | [] => []
  | n :: t => firstn n text :: pieces (skipn n text) t
  end.

(** The blocks of a frame that can all be decoded. *)
Definition sound (blocks : list (option bytes)) (text : bytes) : Prop :=
  exists cs, blocks = map Some cs /\ text = concat cs.
